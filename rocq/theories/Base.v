(** Shared conventions: 64-bit words, outcomes. *)
Require Import ZArith List Bool Lia.
Import ListNotations.
Open Scope Z_scope.

(** uint64_t / size_t / pointers are [Z] values in [0, M64). *)
Definition M64 : Z := 18446744073709551616.
Definition word (x : Z) : Prop := 0 <= x < M64.

(** C++ unsigned arithmetic: every operation reduces modulo 2^64. *)
Definition add64 (a b : Z) : Z := (a + b) mod M64.
Definition sub64 (a b : Z) : Z := (a - b) mod M64.
Definition mul64 (a b : Z) : Z := (a * b) mod M64.
(** [static_cast<uint64_t>(bool)] *)
Definition b2z (b : bool) : Z := if b then 1 else 0.

(** Outcome of a C++ computation.  [AssertFail]: an [Assert] fired (debug
    builds only).  [Undef]: undefined behaviour. *)
Inductive res (A : Type) : Type :=
| Ok (a : A)
| AssertFail
| Undef.
Arguments Ok {A} a.
Arguments AssertFail {A}.
Arguments Undef {A}.

Definition bind {A B} (m : res A) (f : A -> res B) : res B :=
  match m with
  | Ok a => f a
  | AssertFail => AssertFail
  | Undef => Undef
  end.
Notation "'do' p <- m ; k" := (bind m (fun p => k))
  (at level 200, p pattern, m at level 100, k at level 200, right associativity).
