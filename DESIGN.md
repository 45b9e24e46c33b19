# Formal model of generic_embedded_libs (gel)

Prover: Rocq/Coq 8.16.1, plain standard library only.  Sources in `rocq/theories`.
`properties.jsonl` has the properties in English, `MANIFEST.json` the theorems that
answer them, `seeded/LOG.jsonl` the wrong programs the theorems were tested against.

## How the model is organised

Per code module `X` there are up to five files:

* `XModel.v`  – executable Gallina transcription of the C functions, one definition
  per C function, each citing file and lines.  No proofs, no specification.
* `XSpec.v`   – the small, independent specification (what the English says),
  written without using the model's helpers.
* `XSystem.v` – where model and specification meet: runs a history of operations on the
  model, and the assumptions the theorems make about callers, callbacks and devices.
* `XProofs.v` – lemmas (invariants, refinement).
* `XProps.v`  – only the final property theorems (closed by `exact`), the
  non-vacuity examples next to them, and `Print Assumptions` for each.

`Base.v` holds machine-integer wrapping, the outcome type and list/memory helpers,
`Loop.v` the counting loop.  `Float.v` names the operations of
`Coq.Floats.SpecFloat` (IEEE 754 binary32 and binary64, round to nearest even) the code
uses; `FloatSpec.v` says which number a float is; `FloatExact.v` and `FloatRound.v` prove
exactness, monotonicity and error bounds of these operations over the integers.

### Modelling conventions

* Undefined behaviour is a distinct outcome (`Undef`), as is a failing `assert`
  (`Abort`) and an exhausted loop fuel (`Timeout`).  Theorems about normal
  behaviour conclude `Done …`, so they also prove the absence of the other three.
* Machine integers are `Z` with explicit wrap-around (`wrap w`, `swrap w`).
  `int` is 32 bits; `size_t` is 64 bits unless a file says it is parametric;
  `unsigned long`/`long` (timestamps) has a parametric width `w`.
* Out-of-range conversion to a signed type wraps (gcc, documented
  implementation-defined behaviour).  Signed overflow is `Undef` wherever it is
  reachable.  Shifts into the sign bit are `Undef` in the serializer (C32) and have
  gcc's meaning in debounce and pulse counter, where ISO C leaves channel 31 undefined.
* Callbacks, storage drivers, `malloc`'s answers and `sprintf` are function arguments of
  the model, never axioms.
* Element types (circular buffer, queue, stack, maybe) are type parameters.
* A property that is false of the faithful model is kept in `properties.jsonl` and
  answered by a theorem `…_refuted` (an explicit counterexample, checked by
  computation) together with the strongest true variant found, named `…_partial`.
  All properties with status "partial" are of this kind; there are no open goals.

### Trusted base

* Coq's kernel, and the virtual machine (`vm_compute`) in examples, refutations and the
  finite computations (tables of the CRCs, powers of x).
* The assumptions printed by `Print Assumptions` under each theorem: `Closed under the
  global context` for every one.  No axiom of the standard library is used.  (The module
  `ZifyBool` behind `lia` loads `Coq.ssr.ssrunder`, which declares a module type with seven
  fields; they appear in a list of library axioms but no theorem depends on them.)
* The hand transcription of the C code into the `*Model.v` files and the conventions above.
* For the concurrency files: atomic loads and stores of aligned words and of buffer
  elements; sequential consistency in `SpscModel`, `PutsConcModel` and `BulkModel`, delayed
  and reordered stores in `WeakModel` and `BulkWeakModel`, early loads on top of that (putc and getc) in `LoadModel`.
* Compiler, libc (`memcpy`, `memcmp`, `malloc`) and the hardware are outside the model.

## What is modelled

Every function of `/repo/gel` that compiles, and the macros named here.

| code | model | simplifications |
|------|-------|-----------------|
| `collections/circular_buffer.c` | `CbufModel`, `SpscModel`, `PutsConcModel`, `BulkModel`, `WeakModel`, `BulkWeakModel`, `LoadModel`, `CbufNullModel`, `ObserverModel` | `cbuf` and `buffer` not NULL except in `CbufNullModel`, where they may be |
| `collections/queue.h` | `QueueModel`, `QueueConcModel`, `QueueAskModel`, `QueueTallyModel` | in `QueueConcModel` sequential consistency, an item is copied in one step |
| `collections/stack.h` | `StackModel` | the unused field `num` is dropped |
| `collections/listx.h` | `ListxModel` | heap from addresses to the two fields; `container_of` by offset |
| `crc/crc32.c`, `crc/crc16-ccitt.c` | `CrcModel` | |
| `data_structures/maybe.h` | `MaybeModel` | functions passed to map/bind are pure |
| `data_structures/struct_update.[ch]` | `StructUpdateModel` | one region of bytes for variables and heap. `STRUCT_UPDATE_ARRAY` is modelled on the text of its arguments (`+ - * / %`, parentheses, all operands size_t); `STRUCT_UPDATE` only passes an address and a `sizeof` |
| `data_structures/watcher.[ch]` | `WatcherModel`, `WatchNestModel` | callbacks change memory, and in `WatchNestModel` use the functions on their list |
| `debounce/debounce.[ch]` | `DebounceModel` | |
| `debounce/pulsecounter.[ch]` | `PulseModel` | |
| `circular_event_log/circular_event_log.c` | `EventLogModel` | |
| `keypad/keypad.[ch]` | `KeypadModel` | `keypad_get_click_time` is declared but not defined |
| `pagemanager/page_manager.c` | `PageManModel` | `page_manager.h:20-147` is inside `#if 0`, taken as if active; page callbacks do not navigate themselves in this model; the `model` argument is left out |
| `pagemanager/page_manager.c` | `PageNestModel` | page callbacks call the page manager; what a callback returns is decided when it is called; returned views, messages and found flags left out; recursion on fuel |
| `parameter/parameter.[ch]` | `ParameterModel` | little endian byte memory; `sprintf` is any function of its promoted argument; one NaN; no contraction of floating point expressions; `type` fields hold one of the ten values |
| `pid/pid.c` | `PidModel`, `PidFltModel` | int control and output types (the template's), float gains; in `PidFltModel` float types (binary32, no contraction, no excess precision); the second argument of `pid_set_derivative_threshold` is ignored by the code |
| `scheduler/scheduler.c` | `SchedulerModel` | static table; `struct tm` within the ranges of `<time.h>`; at most INT_MAX entries |
| `serializer/serializer.h` | `SerializerModel` | PACK/UNPACK macros as functions of evaluated arguments |
| `state_machine/state_machine.h` | `StateMachineModel`, `SmNestModel` | managers reach the machine only through `_sm_send_event` |
| `timer/timecheck.h` | `TimeModel` | |
| `timer/stopwatch.[ch]` | `StopwatchModel`, `SwCustomModel` | `StopwatchModel` has the default timestamp type, `SwCustomModel` any unsigned one not wider than long |
| `timer/timer.c` | `TimerModel`, `TimerNestModel`, `TmCustomModel` | callbacks reach the timers only through the functions of `timer.h`; `TmCustomModel` has any unsigned timestamp type not wider than long |
| `wearleveling/wearleveling.c` | `WearModel` | reading does not change the device |

Not modelled:

* `GEL_SCHEDULER_DYNAMIC_ENTRIES` – does not compile (`scheduler.c:33` lacks a semicolon,
  `scheduler.h:40` names the undeclared type `schedule_entry_t`);
* `GEL_TIMER_NULL` – does not compile where it is used (`.active` is not a member);
* `scheduler_zero_entry`, `keypad_get_click_time` – declared, never defined;
* NULL arguments other than those the functions test for, `malloc` failure where the code
  does not check it (an `Undef` in `StructUpdateModel`, excluded elsewhere);
* element by element order of `memcpy` in the concurrent model (ascending), early loads in bulk
  calls, stores that overtake older loads;
* Kconfig/CMake files, tests, examples.

## Plan per property

Each line: what is modelled / how it is proved.  "refuted" means: false of the code,
counterexample and true variant proved.

| id | plan |
|----|------|
| C01 | refinement of the ring (head, tail, region) to a list-queue by induction over operation lists |
| C02 | exact value of `circular_buf_size`; refuted for a full buffer, true for all others |
| C03 | exact behaviour of `circular_buf_puts` (loop with fuel, never exhausted); refuted for len = free+1 with tail != 0 |
| C04 | exact behaviour of `_circular_buf_get`; refuted for a full buffer with len >= bufsize |
| C05 | region accesses are `Undef` when out of bounds; invariant over all operation lists, defective calls included |
| C127 | `CbufSpec.exact_step`: content, unused cells in filling order and position of the ring; simulation of every legal call, defects included (`CbufExactProofs`) |
| C128 | `DebounceSpec.sampled`: reading and remaining count of one input; every call carries its own argument; simulation per input (`DebounceVaryProofs`) |
| C129 | the same automaton plus a pulse count, started from the stale filter cell of the memory (`PulseVaryProofs`) |
| C130 | `KeypadSpec.pad_run`: the current key and its phase, the states shown; the scan concerns one key only, so the single-key simulation applies (`KeypadTableProofs`) |
| C131 | `SchedulerSpec.contenders` and `survivor`: ties decided on low bytes; loop invariant over the table |
| C132 | `WearSpec.boot` and `xstep`: markers, data, active block and marker; simulation over histories `xrun` with refused and torn writes |
| C133 | `WearSpec.cycles`: after the fall-back the markers alternate between two patterns, both of which select block 0 |
| C06 | `SpscModel`: small-step producer/consumer system, one shared access per step; inductive invariant over all interleavings; ghost log for linearizability |
| C07 | small-step `circular_buf_puts`; refuted by a schedule after which the producer spins for ever; true without interference |
| C121-C123 | `BulkModel`: all calls of both threads as step functions over positions in the code; invariant relating the published stream and the removed count to head, tail and the local variables; decreasing step count for wait-freedom |
| C124 | `BulkSystem`: a thread's steps iterated without the other thread; compared with `CbufModel` call by call in every state (`bulk_alone`). For C122 `bulk_stores` and `bulk_loads` say that the cells named in the race statement are all the cells a step touches. |
| C08 | 16-bit indices; refinement for capacities 2^k, k <= 15 |
| C09 | exact value of `_count`; refuted after the write index wraps |
| C10 | refuted for capacity 3; FIFO if and only if the capacity is a power of two up to 32768 |
| C11 | refinement by induction over operation lists |
| C12 | refuted; exact characterisation (slot above the top, `Undef` when full) |
| C13-C15, C100 | representation predicate of cyclic doubly linked lists; refinement with frame |
| C16-C20 | words of parametric width as Z with testbit; per-channel automaton, then history theorems; C20 refuted |
| C21-C22 | count = number of edges of the reference reading; C22 refuted |
| C23-C24 | table = bit-serial step for all 256 entries (computation), lifted to all messages by induction; remainder of polynomial division |
| C25 | induction on the message |
| C26-C27 | linearity of the bit-serial register, injectivity of the zero step; parity functional for CRC-16 |
| C28 | multiplicative order of x modulo the polynomial (repeated squaring, cofactor test) |
| C125, C126 | a sum of at most k powers of x below the window is not a multiple of the polynomial: search by meeting in the middle (`CrcErrorsProofs.search`, proved correct, run by the virtual machine in `CrcSearch`), lifted to all messages by linearity; sharp by pairs of messages. C126 follows from C26 and C28. |
| C29-C32, C98 | C promotion and shift semantics; arithmetic proofs; C32 refuted |
| C33-C40 | table as list of entries; argmin scan invariant; C34-C39 partly refuted; codec round trip |
| C41-C46, C104 | device = list of (marker, data) with fault oracle; ring-marker invariant over write/restart histories; C42, C43, C45, C46 refuted |
| C47-C51 | storage callbacks; window lemma on rings; C47, C50, C51 refuted |
| C52-C57, C109, C110 | full scan of the key table; automaton of a key, simulation over timed histories; C56 refuted |
| C58-C61 | parametric widths; modular arithmetic; C61 refuted |
| C62-C65 | reference accumulates true time; simulation over histories; C63, C65 refuted |
| C66-C69 | over the stopwatch model; polling histories; C69 refuted |
| C70-C75 | manager state, callback log, assert as `Abort`, NDEBUG as a parameter; simulation with a list of pages and lifecycle automaton per page; C71-C74 partly refuted |
| C76-C86, C102, C103, C107, C117 | byte memory, C promotion rules, ten types; limits constant or read through pointers; C77, C79, C82, C83, C85, C86 refuted |
| C108, C115, C116, C118 | float and double parameters on `SpecFloat`; specification by integers times powers of two; C116 refuted |
| C87-C89, C101, C105, C106 | ring-buffer lemmas against the list of errors; gains are floats; C87, C106 refuted |
| C114, C119, C120 | exactness, monotonicity and accuracy of the PID output through rounding; C114 refuted |
| C90-C94, C99, C113 | memory, watcher list, callbacks as memory transformers, delayed watchers over timed histories; C93, C94, C113 refuted |
| C95, C111, C112 | allocation states and histories of make/apply/free; C112 refuted |
| C96 | polymorphic equations |
| C97 | manager table, `Undef` on an invalid slot, histories |
| C134 | `PageManSpec.desk_run`: front page, pile, flag and calls; simulation covering also `Undef` and `Abort` |
| C135 | corollary of C134: without the push the pile stays empty |
| C136 | corollary of C134: the flag stays down without a change |
| C137 | `TimerSpec.effect` and `scripted_run`: the period and reload flag a callback leaves; simulation with callbacks that run `obey` |
| C138 | `EventLogSpec.window`; case analysis of the wrapped sum: the request exceeds the storage |
| C139 | `WatcherSpec.sight_step`: a machine per watcher (remembered bytes, time of an unreported change); refinement by induction on the calls and on the list |
| C140 | storage that delivers a prefix of each request; the requests for any storage (`plan_l`), exact buffer and result; refuted |
| C141 | Parameter model; `in_type` is the number of the type congruent to the sum, `confined` the choice between it and the limits, `computable` the range of the arithmetic. |
| C142 | Parameter model; `in_type` and `computable`. |
| C143 | Parameter model; `in_type`. |
| C144 | Wear model with arbitrary callbacks; `comes_up` says what the markers and return codes lead to. |
| C145 | Parameter model; `passes` is the comparison with the limits in the order of `SpecFloat`. |
| C146 | PID model; `int_of` is the reduction, `as_int` applies it to the thresholds of a history. |
| C147 | Scheduler model at 23:59:60; refuted, exact behaviour proved. |
| C148 | `WeakModel`: the steps of `SpscModel` on cores with queues of pending stores; the schedule decides when a store reaches the memory; invariant over all schedules relating the pending stores to the two counters |
| C149 | `WeakModel`, stores in program order; refuted by a schedule; linearization with barriers (ghost log) and exact answers without proved. |
| C150 | `WeakModel`, stores in any order; refuted by a schedule; proved for release stores. |
| C151 | `PageNestModel`: the functions with every callback call a point where the callback may navigate (state re-read as through the C pointers), on fuel; simulation by the flat model |
| C152 | `PageNestModel`; invariant relating the nested run to the stack machine of `PageManSpec` call by call; refuted by five programs (`gate`: a trace of pages with all callbacks that is lawful uses pages only in view) |
| C153 | `BulkWeakModel`: the step functions of `BulkModel` on the view of a core, with the store queues of `WeakModel`; the invariant of C121 holds of each core's view separately, the queues connect them (`BulkWeakProofs`) |
| C154 | refuted by a schedule with stores in program order; true once the stores have arrived |
| C155 | `LoadModel`: `WeakModel` plus the history of the memory; every load takes a moment; the invariant of C148 extended with positions and settled cells of every moment (`LoadProofs`) |
| C156 | refuted by a schedule; true for runs whose cell loads follow the head load |
| C157 | `SmNestModel`: managers as trees of nested sends; history of calls and results; induction on depth and on the manager |
| C158 | refuted by one nested event; true for managers that do not both send and move |
| C159 | `WatchNestModel`: callbacks as trees of calls on their own list; the state is a processed part and an untouched one, induction on what is left; for arbitrary times, watchers that were called stay idle |
| C160 | refuted: endless recursion, proved for every fuel; terminates for delayed watchers (number of busy watchers) |
| C161 | refuted by a nested processing; one direction proved |
| C162 | `TimerNestModel`: table of timers, callbacks as trees of calls; the timers whose callbacks run are stopped (invariant), so the depth is bounded by the number of timers |
| C163 | refuted: endless recursion, proved for every fuel; terminates under the discipline of C162 |
| C164 | `WearCutSystem`: writes cut short leave any data and any marker; invariant: only the marker behind the active block is unknown, and it does not follow |
| C165 | refuted for devices that store the marker first; proved for the others |
| C166 | `PidFltModel`: the same functions with float types; `frun` of any history is `Done` |
| C167 | `PidFltSpec.alike` relates float calls and calls with integers in units of 2^k; the output is worth the sum of the terms of `PidSpec` |
| C168 | as C167 with `matches`: a NaN reading stands for a reading at the set point |
| C169 | refuted (readings at the set point keep the old contribution); proved for readings off the set point |
| C170 | `CbufNullModel`: the structure pointer and the buffer pointer as options; `n_run` against `null_answer` |
| C171 | refuted (division by a size of 0 before the NULL test); every history follows `life`, with the answers of `blank_answer` before the first successful initialisation |
| C172 | `QueueConcModel`: enqueue and dequeue one access at a time; invariant with unbounded counters over all interleavings, `Undef` unreachable |
| C173 | refuted (index published before the item is stored, cell released before it is read); proved with a margin of one cell on the side that can be interrupted |
| C174 | the register after w more bits is w shifts of register xor suffix; 0 only for equality (`CrcFrameProofs`); with `SerializerModel` for the frame |
| C175 | the shift of the register has an inverse |
| C176 | `serial_crc` is linear; shifting is injective |
| C177 | `SerRecSystem`: a caller folding the calls over a list of fields; induction over the list, digits in base 256 as specification |
| C178 | `SwCustomModel`: the stopwatch with explicit conversions to a type of any width; simulation of the true-time stopwatch of C62 |
| C179 | refuted; exact value of `stopwatch_is_timer_reached` from the same simulation |
| C180 | `fstepped` of C108 with monotonicity of rounded sums and products (`FloatStep`) |
| C181 | refuted; strict growth from the next number above, loss from uniqueness of the rounded sum |
| C182 | well-founded induction on the distance to the limit in units of the smallest number, with C181's growth |
| C183 | refuted; `TmCustomModel`: the timer on the stopwatch of `SwCustomModel`; simulation over all histories of calls |
| C184 | induction on the number of calls; quotient and remainder by the step as specification |
| C185 | refuted; two applications of the single step theorem C77 |
| C186 | order of sums and products of all floats (`FloatOrder`), lifted through the three terms; both runs share their history |
| C187 | refuted; the same order, and that a difference of floats is 0 only for equal ones |
| C188 | `ListxWorldSpec`: association of heads and sequences; simulation call by call, with the frame of C13 for the other lists |
| C189 | refuted; the two halves outside the lost nodes joined again |
| C190 | induction over the removed nodes; the four writes undo the two |
| C191 | DebKeySystem runs the debounce and keypad models one after the other; DebKeySpec gives the level of an input as that of the latest d+1 equal samples; the keypad part is the table specification of C130 on those words. |
| C192 | Corollary of C191 for histories without d+1 high samples in a row. |
| C193 | Corollary of C191: the settled levels of a bouncing press are low, then high, then low; the timed automaton gives one press. |
| C194 | SchedWeekSpec counts the seconds of a week; the count of a day is that of an interval or its complement, by induction, and the week is seven days. |
| C195 | Compares C194 with the modelled scheduler_get_entry_duration; refuted with three witnesses, then characterised for start <= end. |
| C196 | SchedTableSystem runs histories of checked additions and removals with the modelled functions; invariant: enabled entries of the table do not overlap. Refuted past midnight. |
| C197 | SchedStoreSystem runs the models of scheduler, serializer and wear leveling together; every step is that of the byte history of C42/C43. |
| C198 | PulseDebSystem runs the models of debounce filter and pulse counter side by side; the answers are compared, with one automaton per input (C128, C129) as the link. |
| C199 | Refuted and bounded: `fired` extracts the instants of the callbacks from the answers of the timer model; link C67. |
| C200 | Refuted and repaired: EventKeepSystem adds copies of the structure and restarts to the event log model; `ahead` in the specification counts the slots overwritten by lost events. |
| C201 | The memory is a function of true time; the outputs of the watcher model are searched for the call; link C91. |
| C202 | Signals are lists of stretches of booleans with runs required or excluded; link pulse_counts_edges (C21). |
| C203 | Each change of the debounced level uses up d+1 samples; link pulse_counts_edges (C21). |
| C204 | Traces of (time, down, event) split at the events; link keypad_automaton (C53-C55). |
| C205 | The selection loop depends on the activity of enabled entries only; activity is compared at both times. |
| C206 | Queries as functions of the values loaded at arbitrary moments of a run of `SpscModel`; refuted for a third thread (`Observer*`). |
| C207 | is_empty/is_full as functions of the values loaded at arbitrary moments of a run of `QueueConcModel`, followed by the next call of the same thread (`QueueAsk*`). |
| C208 | The queries of C206 made by the producer or the consumer, followed by a further run of both threads (`CbufAsk*`). |
| C209 | A window of calls of `pad_run` (C130) is a run of the single key automaton of C204 until the release (`KeyTabLate*`). |
| C210 | A reading loop over `EventLogModel` with saves between the loads, compared with the last events of the history (`LogPages*`). |
| C211 | `PidFltModel` against the exact terms of `PidSpec`; every product and sum of floats is near the exact one (`PidFltErr*`). |
| C212 | The loads of a query at any moments of an execution of `QueueConcModel` (`QueueWatch*`). Refuted for two running threads, proved for one and for negative answers. |
| C213 | `asked_count` on loads at any moments of an execution of `QueueConcModel`; induction over the calls that follow (`QueueTally*`). |
