(** Histories of appending. *)
Require Import ZArith List Bool.
From Verif Require Import Base StrSpec StrModel StrStatements.
Import ListNotations.
Open Scope Z_scope.


Section Wide.
Context {ChT : CharType}.

(** [m] calls in a row that append something to object [i], each of which returned. *)
Inductive appending (dbg arena : bool) (mal : nat -> Z -> bool) (ar : Z) (i : nat) : nat -> sys -> sys -> Prop :=
| appending_none s : appending dbg arena mal ar i O s s
| appending_more m s s1 ss1 o s2 :
    appending dbg arena mal ar i m s s1 -> sees s1 ss1 -> allowed ar ss1 (SOn i o) -> appends o ->
    step dbg arena mal ar s1 (SOn i o) = SRet s2 -> h_rfail (s_heap s2) = false ->
    appending dbg arena mal ar i (S m) s s2.
(** How often memory was asked for between two states. *)
Definition requests (h h' : heap) (k : nat) : Prop := h_calls h' = (k + h_calls h)%nat.
End Wide.
