(** Searching and comparing character sequences, as their users see it. *)
Require Import ZArith List Bool.
From Verif Require Import Base StrSpec.
Import ListNotations.
Open Scope Z_scope.

(** [needle] occurs in [hay] at index [k]. *)
Definition occurs_at (needle hay : list Z) (k : Z) : Prop :=
  exists a b, hay = a ++ needle ++ b /\ slen a = k.
(** [r] is the least index from [pos] on, the greatest up to [pos], for which [P] holds; none if [None]. *)
Definition least (pos : Z) (P : Z -> Prop) (r : option Z) : Prop :=
  match r with
  | Some k => pos <= k /\ P k /\ forall j, pos <= j -> P j -> k <= j
  | None => forall j, pos <= j -> ~ P j
  end.
Definition greatest (pos : Z) (P : Z -> Prop) (r : option Z) : Prop :=
  match r with
  | Some k => k <= pos /\ P k /\ forall j, j <= pos -> P j -> j <= k
  | None => forall j, j <= pos -> ~ P j
  end.
(** The character at index [k] is in the set, is not in the set. *)
Definition in_set (set l : list Z) (k : Z) : Prop := exists c a b, l = a ++ c :: b /\ slen a = k /\ In c set.
Definition not_in_set (set l : list Z) (k : Z) : Prop := exists c a b, l = a ++ c :: b /\ slen a = k /\ ~ In c set.

(** Lexicographic order on unsigned characters, a prefix first. *)
Inductive lex_lt : list Z -> list Z -> Prop :=
| lex_nil c l : lex_lt [] (c :: l)
| lex_head c d l m : c < d -> lex_lt (c :: l) (d :: m)
| lex_tail c l m : lex_lt l m -> lex_lt (c :: l) (c :: m).
(** [r] is negative, zero or positive as [a] is before, equal to, after [b]. *)
Definition orders (a b : list Z) (r : Z) : Prop := (r < 0 <-> lex_lt a b) /\ (r = 0 <-> a = b) /\ (0 < r <-> lex_lt b a).

(** The characters up to the first zero of memory that has one. *)
Definition c_string (memory l : list Z) : Prop := ~ In 0 l /\ exists rest, memory = l ++ 0 :: rest.
