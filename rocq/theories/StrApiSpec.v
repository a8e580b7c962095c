(** The rest of the string interface, as its users see it. *)
Require Import ZArith List Bool.
From Verif Require Import Base StrSpec StrModel StrStatements.
Import ListNotations.
Open Scope Z_scope.


Section Wide.
Context {ChT : CharType}.

(** The mark of refused allocations is about the next call. *)
Definition ready (s : sys) : sys := {| s_heap := clean (s_heap s); s_objs := s_objs s |}.

(** [p] points to index [k] of object [i], which shares its characters with no other. *)
Definition points_to (s : sys) (i : nat) (k : Z) (p : ptr) : Prop :=
  exists c, sget (s_objs s) i = Some c /\ p = ptr_add (data c) k /\ is_shared (s_heap s) c = Ret false (s_heap s) c.
(** The call ends with the values [ss'] and a pointer to index [k] of object [i], unless memory ran out;
    then object [i] has some value and every other object its old one. *)
Definition gives_ptr (ss' : list (option (list Z))) (i : nat) (k : Z) (r : sout * option ptr) : Prop :=
  match r with
  | (SRet s', Some p) => sees s' ss' /\ points_to s' i k p
  | (SThr BadAlloc s', None) => h_refused (s_heap s') = true /\
      (h_rfail (s_heap s') = false -> exists v, Forall is_char v /\ sees s' (sset i (Some v) ss'))
  | (STerm h, None) => h_refused h = true
  | (SUB h, None) => h_rfail h = true
  | _ => False
  end.

(** [x] is the beginning, the end, of [l]. *)
Definition prefix (x l : list Z) : Prop := exists r, l = x ++ r.
Definition suffix (x l : list Z) : Prop := exists r, l = r ++ x.

(** [l] brought to [w] characters. *)
Definition padded (w : Z) (left : bool) (fill : Z) (l : list Z) : list Z :=
  let p := srep (w - slen l) fill in if left then l ++ p else p ++ l.

(** The characters before the first zero. *)
Definition up_to_zero (l r : list Z) : Prop := ~ In 0 r /\ (l = r \/ exists t, l = r ++ 0 :: t).
End Wide.
