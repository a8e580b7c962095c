(** What iterators mean: positions in a sequence. *)
Require Import ZArith List Bool.
From Verif Require Import Base VecSpec.
Import ListNotations.
Open Scope Z_scope.

Inductive icmd :=
| INull                        (* It()  *)
| IBegin | IEnd
| ICopy (i : nat) | IMove (i : nat) | IConst (i : nat)
| IAssign (i j : nat) | IAssignMove (i j : nat)
| IPreInc (i : nat) | IPostInc (i : nat) | IPreDec (i : nat) | IPostDec (i : nat)
| IAddTo (i : nat) (n : Z) | ISubFrom (i : nat) (n : Z)
| IPlus (i : nat) (n : Z) | IPlusRev (n : Z) (i : nat) | IMinus (i : nat) (n : Z)
| IDistance (i j : nat) | ICompare (i j : nat)
| IRead (i : nat) | IReadAt (i : nat) (n : Z)
| IWrite (i : nat) (x : Z) | IWriteAt (i : nat) (n x : Z).

(** A position, or nothing for an iterator that points nowhere. *)
Definition place := option Z.
Definition place_of (ps : list place) (i : nat) : option Z := match nth_error ps i with Some p => p | None => None end.
Definition exists_ (ps : list place) (i : nat) : bool := (i <? length ps)%nat.

(** Arithmetic stays within [0, length]; reading and writing needs an element. *)
Definition to (l : list Z) (p : Z) : option Z := if (0 <=? p) && (p <=? len l) then Some p else None.
Definition sign (n : Z) : Z := match n ?= 0 with Lt => -1 | Eq => 0 | Gt => 1 end.
Definition with_value (l : list Z) (p x : Z) : option (list Z) :=
  if (0 <=? p) && (p <? len l) then Some (take p l ++ x :: drop (p + 1) l) else None.
Definition bindo {A B} (o : option A) (f : A -> option B) : option B := match o with Some x => f x | None => None end.

Definition imeaning (l : list Z) (ps : list place) (c : icmd) : option (list Z * list place * Z) :=
  let at_place i f := bindo (place_of ps i) f in
  match c with
  | INull => Some (l, ps ++ [None], 0)
  | IBegin => Some (l, ps ++ [Some 0], 0)
  | IEnd => Some (l, ps ++ [Some (len l)], 0)
  | ICopy i | IConst i => bindo (nth_error ps i) (fun p => Some (l, ps ++ [p], 0))
  | IMove i => bindo (nth_error ps i) (fun p => Some (l, lset i None ps ++ [p], 0))
  | IAssign i j => if exists_ ps i then bindo (nth_error ps j) (fun p => Some (l, lset i p ps, 0)) else None
  | IAssignMove i j =>
      if exists_ ps i then
        bindo (nth_error ps j) (fun p => Some (l, if (i =? j)%nat then ps else lset j None (lset i p ps), 0))
      else None
  | IPreInc i => at_place i (fun p => bindo (to l (p + 1)) (fun q => Some (l, lset i (Some q) ps, 0)))
  | IPostInc i => at_place i (fun p => bindo (to l (p + 1)) (fun q => Some (l, lset i (Some q) ps ++ [Some p], 0)))
  | IPreDec i => at_place i (fun p => bindo (to l (p - 1)) (fun q => Some (l, lset i (Some q) ps, 0)))
  | IPostDec i => at_place i (fun p => bindo (to l (p - 1)) (fun q => Some (l, lset i (Some q) ps ++ [Some p], 0)))
  | IAddTo i n => at_place i (fun p => bindo (to l (p + n)) (fun q => Some (l, lset i (Some q) ps, 0)))
  | ISubFrom i n => at_place i (fun p => bindo (to l (p - n)) (fun q => Some (l, lset i (Some q) ps, 0)))
  | IPlus i n | IPlusRev n i => at_place i (fun p => bindo (to l (p + n)) (fun q => Some (l, ps ++ [Some q], 0)))
  | IMinus i n => at_place i (fun p => bindo (to l (p - n)) (fun q => Some (l, ps ++ [Some q], 0)))
  | IDistance i j => at_place i (fun p => at_place j (fun q => Some (l, ps, p - q)))
  | ICompare i j => at_place i (fun p => at_place j (fun q => Some (l, ps, sign (p - q))))
  | IRead i => at_place i (fun p => bindo (at_ l p) (fun x => Some (l, ps, x)))
  | IReadAt i n => at_place i (fun p => bindo (at_ l (p + n)) (fun x => Some (l, ps, x)))
  | IWrite i x => at_place i (fun p => bindo (with_value l p x) (fun l1 => Some (l1, ps, 0)))
  | IWriteAt i n x => at_place i (fun p => bindo (with_value l (p + n) x) (fun l1 => Some (l1, ps, 0)))
  end.
Fixpoint imeanings (l : list Z) (ps : list place) (cs : list icmd) : option (list Z * list place * list Z) :=
  match cs with
  | [] => Some (l, ps, [])
  | c :: r => bindo (imeaning l ps c) (fun '(l1, ps1, x) =>
              bindo (imeanings l1 ps1 r) (fun '(l2, ps2, xs) => Some (l2, ps2, x :: xs)))
  end.
(** Indexing an iterator is only right forwards. *)
Definition forwards (c : icmd) : Prop := match c with IReadAt _ n | IWriteAt _ n _ => 0 <= n | _ => True end.
