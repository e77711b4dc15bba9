(** SpecMisc.v — specification vocabulary for element access: a list with one position replaced. *)
From Coq Require Import List.
Import ListNotations.

(** [l] with position [i] replaced by [x]; only used for [i < length l] *)
Definition upd {T} (l : list T) (i : nat) (x : T) : list T := firstn i l ++ x :: skipn (S i) l.
