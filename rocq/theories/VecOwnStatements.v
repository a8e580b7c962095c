(** What insert and emplace of stdb_vector find through a reference to an element of the vector. *)
Require Import ZArith List Bool.
From Verif Require Import Base VecSpec VecModel VecStatements.
Import ListNotations.
Open Scope Z_scope.

(** Making room for [n] elements at [pos] first and looking at slot [j] then: an
    element in front is still there, one far enough behind has been replaced by the
    one [n] in front of it; in the gap there is an object only if moving leaves the
    original as it was. *)
Definition seen (k : kind) (pos n j : Z) (l : list Z) : option Z :=
  if j <? pos then at_ l j
  else if j <? pos + n then match k with KMove | KCopy => None | _ => at_ l j end
  else at_ l (j - n).
(** The calls that insert [n] copies of element [j]. *)
Definition inserts_own (o : uop) (safe : bool) (pos n j : Z) : Prop :=
  o = UInsertN safe pos n (Elem j) \/ n = 1 /\ (o = UInsert safe pos (Elem j) \/ o = UEmplace safe pos (Elem j)).
(** The call threw, for want of memory, or its behaviour is undefined. *)
Definition threw_or_undef (mal : Z -> bool) (m : res (vsys * outc)) : Prop :=
  m = Undef \/ (exists s', m = Ok (s', Threw)) /\ exists n, mal n = false.

(** [l] without the elements equal to [x]. *)
Definition without (x : Z) (l : list Z) : list Z := filter (fun y => negb (y =? x)) l.
