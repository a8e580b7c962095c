(** What reading a line and reading a word from a stream mean. *)
Require Import ZArith List.
Import ListNotations.
Open Scope Z_scope.

(** A line of [input]: up to the first [d], which is removed with it, or all that
    is there ([ended]). *)
Definition is_line (d : Z) (input line rest : list Z) (ended : bool) : Prop :=
  ~ In d line /\ if ended then input = line /\ rest = [] else input = line ++ d :: rest.

(** Whitespace of the "C" locale. *)
Definition white (c : Z) : Prop := c = 32 \/ 9 <= c <= 13.
(** A word of [input] of at most [width] characters ([None]: any number): blanks
    [b] are skipped; it ends before whitespace, at the end of the input, or when
    it is [width] long. *)
Definition is_word (width : option Z) (input b word rest : list Z) : Prop :=
  input = b ++ word ++ rest /\ Forall white b /\ Forall (fun c => ~ white c) word /\ word <> [] /\
  match width with Some w => Z.of_nat (length word) <= w | None => True end /\
  (rest = [] \/ (exists c r, rest = c :: r /\ white c) \/ width = Some (Z.of_nat (length word))).
