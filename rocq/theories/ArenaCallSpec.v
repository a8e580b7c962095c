(** What is asked of on_arena_allocation and on_arena_newblock when they use
    arenas. *)
Require Import ZArith List Bool.
From Verif Require Import Base ArenaSpec ArenaModel ArenaStatements ArenaHookModel ArenaHookSpec ArenaCallModel.
Import ListNotations.
Open Scope Z_scope.

(** Events of requests: nothing is given back, run, made or destroyed. *)
Definition request (x : event) : Prop :=
  match x with
  | EBlockAlloc _ _ _ | ELog | HAlloc _ _ _ _ | HNewBlock _ _ _ _ | CRange _ _ _ | CRegister _ _ _ => True
  | _ => False
  end.

(** The operations do not concern arena [i]: they are not its operations, and
    those that go through a memory_resource do not get to it. *)
Definition keeps_off (i : nat) (s : sys) (l : list (nat * op)) : Prop :=
  forall j o, In (j, o) l -> j <> i /\
    (uses_resource o = true -> forall a, nth_error (s_arenas s) j = Some (Some a) -> a_resource a <> Some i).

(** on_arena_allocation may use any arena, the one it is called by included;
    on_arena_newblock any other.  Asked for what the hooks may do from here on
    until something else than a request happens. *)
Definition calls_ok (A : Z) (c : calls) (s : sys) : Prop :=
  forall i evs, alive s i -> Forall request evs ->
    let h := evs ++ m_hist (s_mem s) in
    may_use A s (c_alloc c h i) /\ may_use A s (c_block c h i) /\ keeps_off i s (c_block c h i).

(** The cleanup that an operation returning [r] has registered. *)
Definition op_cleanup (o : op) (r : Z) : option (Z * Z) :=
  match o with
  | OAllocateCleanup _ fn el => Some (if el =? 0 then r else el, fn)
  | OOwn obj fn => Some (obj, fn)
  | _ => None
  end.

Definition permitted_c (A : Z) (k : hooks) (c : calls) (s : sys) (o : sop) : Prop :=
  permitted_h A k s o /\ match o with SOp _ _ => calls_ok A c s | _ => True end.

Inductive reach_c (e : env) (k : hooks) (c : calls) (A : Z) : sys -> Prop :=
| rc_init : reach_c e k c A init
| rc_step s o s' r : reach_c e k c A s -> permitted_c A k c s o -> step_c e c k s o = Ok (s', r) -> tame s s' o ->
    reach_c e k c A s'.
