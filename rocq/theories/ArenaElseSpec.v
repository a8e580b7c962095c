(** Cleanups that use arenas other than the one that runs them. *)
Require Import ZArith List Bool.
From Verif Require Import Base ArenaSpec ArenaModel ArenaStatements ArenaReentModel ArenaHookModel ArenaHookSpec
  ArenaCallModel ArenaCallSpec.
Import ListNotations.
Open Scope Z_scope.

(** What the cleanups pending in arena [i] do is what a client may do, and does
    not concern arena [i]. *)
Definition elsewhere (A : Z) (w : script) (s : sys) (i : nat) : Prop :=
  forall el fn, In (el, fn) (pending (m_hist (s_mem s)) i) ->
    may_use A s (w el fn) /\ keeps_off i s (w el fn).

Definition permitted_e (A : Z) (w : script) (s : sys) (o : sop) : Prop :=
  permitted A s o /\ match o with SReset i | SDestroy i => elsewhere A w s i | _ => True end.

Inductive reach_e (e : env) (w : script) (A : Z) : sys -> Prop :=
| re_init : reach_e e w A init
| re_step s o s' r : reach_e e w A s -> permitted_e A w s o -> step_r e w s o = Ok (s', r) -> reach_e e w A s'.
