(** What reading object [i] of a system from a stream may do. *)
Require Import ZArith List Bool.
From Verif Require Import Base StrSpec StrModel StrStatements StrStreamSpec StrStreamModel.
Import ListNotations.
Open Scope Z_scope.


Section Wide.
Context {ChT : CharType}.

(** The call ends with object [i] having a value as [P] says and every other
    object its old one, unless memory ran out. *)
Definition stream_gives (ss : list (option (list Z))) (i : nat) (P : stream -> list Z -> Prop) (r : sout * option stream) : Prop :=
  match r with
  | (SRet s', Some st') => exists v, P st' v /\ sees s' (sset i (Some v) ss)
  | (SThr BadAlloc s', None) => h_refused (s_heap s') = true /\
      (h_rfail (s_heap s') = false -> exists v, Forall is_char v /\ sees s' (sset i (Some v) ss))
  | (STerm h, None) => h_refused h = true
  | (SUB h, None) => h_rfail h = true
  | _ => False
  end.
(** No state bit is set; the characters fit in char, the width in streamsize. *)
Definition stream_ok (st : stream) : Prop :=
  eofbit st = false /\ failbit st = false /\ badbit st = false /\ Forall is_char (inp st) /\ 0 <= width st < 2 * limit.
End Wide.
