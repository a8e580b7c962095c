(** Definitions the statements about iterators use. *)
Require Import ZArith List Bool.
From Verif Require Import Base VecSpec VecModel VecIterSpec VecIterModel.
Import ListNotations.
Open Scope Z_scope.

(** The iterator [p] of vector [v] is at place [q]; a vector without buffer has
    only null pointers to offer. *)
Definition points (v : vec) (p : iter) (q : place) : Prop :=
  match q with
  | None => p = None
  | Some z => match v with Vec None _ _ => z = 0 /\ p = None | _ => p = Some z end
  end.
(** The system with vector [i] replaced. *)
Definition with_vec (s : vsys) (i : nat) (v : vec) : vsys := {| vs := vupd i (Some v) (vs s); vacct := vacct s |}.
