(** Parsers as values: a parser is what its calls made of it, a copy is equal to its
    source, and nothing done to one parser shows in another. *)
Require Import ZArith List.
From Verif Require Import OptModel OptSpec2 OptLifeModel.
Import ListNotations.
Open Scope Z_scope.

Section Values.
Variables (real : type -> list Z -> Z) (getenv : list Z -> option (list Z)).

(** A call on a parser by itself: its options refer to it. *)
Definition alone_call (p : parser) (c : pcall) : parser * ending :=
  do_call real getenv (fun _ => Some p) p (repeat 0%nat (length (options p))) c.
(** Parsers that went through any calls, however these ended. *)
Inductive used : parser -> Prop :=
| u_new p : new p -> used p
| u_call p c : used p -> used (fst (alone_call p c)).

(** Parsers as values. *)
Inductive slot := Live (p : parser) | MovedFrom | Destroyed.
Definition values_ := list slot.
Fixpoint replace (V : values_) (i : nat) (x : slot) : values_ :=
  match V, i with [], _ => [] | _ :: r, O => x :: r | y :: r, S j => y :: replace r j x end.
Inductive vstep : values_ -> wop -> values_ -> ending -> Prop :=
| v_new V p : new p -> vstep V (WNew p) (V ++ [Live p]) (Returned empty_store)
| v_call V i p c : nth_error V i = Some (Live p) ->
    vstep V (WCall i c) (replace V i (Live (fst (alone_call p c)))) (snd (alone_call p c))
| v_copy V i p : nth_error V i = Some (Live p) -> vstep V (WCopy i) (V ++ [Live p]) (Returned empty_store)
| v_move V i p : nth_error V i = Some (Live p) -> vstep V (WMove i) (replace V i MovedFrom ++ [Live p]) (Returned empty_store)
| v_destroy V i s : nth_error V i = Some s -> s <> Destroyed -> vstep V (WDestroy i) (replace V i Destroyed) (Returned empty_store).

(** Every option of object [i] has a destination, or no name to take it from, or was
    declared on a parser that is still there: neither destroyed nor moved from. *)
Definition at_home (W : world) (V : values_) (i : nat) : Prop :=
  forall x k o r, living W i = Some x -> nth_error (options (o_parser x)) k = Some o -> nth_error (o_refs x) k = Some r ->
    dest o <> [] \/ names o = [] \/ exists q, nth_error V r = Some (Live q).
Definition parses_at_home (W : world) (V : values_) (o : wop) : Prop :=
  match o with WCall i (PParse _) => at_home W V i | _ => True end.

(** The objects and the values side by side. *)
Inductive beside : world -> values_ -> Prop :=
| b_none : beside [] []
| b_step W V o W' V' e e' : beside W V -> parses_at_home W V o -> wstep real getenv W o = Some (W', e) -> vstep V o V' e' -> beside W' V'.
End Values.
