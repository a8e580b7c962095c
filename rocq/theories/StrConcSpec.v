(** What each thread may expect of its own strings: they are values that nothing
    another thread does can change. *)
Require Import ZArith List.
From Verif Require Import StrConcModel.
Import ListNotations.

Definition value := option (list Z).
Definition value_at (vs : list value) (i : nat) : value :=
  match nth_error vs i with Some v => v | None => None end.
(** One operation on the values; the operation on a string that is not there does
    nothing. *)
Definition play (vs : list value) (p : op) : list value :=
  match p with
  | New l => vs ++ [Some l]
  | Copy i => match value_at vs i with Some l => vs ++ [Some l] | None => vs end
  | Destroy i => set_nth i None vs
  | Read _ => vs
  | Mutate i f => match value_at vs i with Some l => set_nth i (Some (f l)) vs | None => vs end
  end.
Definition plays (vs : list value) (ps : list op) : list value := fold_left play ps vs.
