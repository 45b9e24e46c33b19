(** Loop bodies for the traversals. *)
From Verif Require Import Base ListxModel.

(** A body that does not touch the heap. *)
Definition reader (h : heap) (pos : Z) : outcome heap := Done h.

(** A body that removes the current node from the list if it is chosen by [f]. *)
Definition remover (f : Z -> bool) (h : heap) (pos : Z) : outcome heap := if f pos then list_del h pos else Done h.

(** The same for the entry loops: the node is the member at [off] in the structure [pos]. *)
Definition entry_remover (f : Z -> bool) (off : Z) (h : heap) (pos : Z) : outcome heap := remover f h (pos + off).
