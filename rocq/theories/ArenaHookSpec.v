(** What is asked of metrics hooks that use arenas, and what the arenas promise
    when there are such hooks. *)
Require Import ZArith List Bool.
From Verif Require Import Base ArenaSpec ArenaModel ArenaStatements ArenaReentSpec ArenaHookModel.
Import ListNotations.
Open Scope Z_scope.

(** Every operation of the list is one a client may perform. *)
Definition may_use (A : Z) (s : sys) (l : list (nat * op)) : Prop :=
  forall j o, In (j, o) l -> alive s j /\ op_ok A o /\ (uses_resource o = true -> resource_alive s j).

(** The hook of a new arena may use that arena too; its get_memory_resource()
    only if the memory_resource could be allocated. *)
Definition may_use_new (A : Z) (s : sys) (resource : bool) (l : list (nat * op)) : Prop :=
  forall j o, In (j, o) l -> op_ok A o /\
    ((alive s j /\ (uses_resource o = true -> resource_alive s j)) \/
     (j = length (s_arenas s) /\ (uses_resource o = true -> resource = true))).

Definition permitted_h (A : Z) (k : hooks) (s : sys) (o : sop) : Prop :=
  permitted A s o /\
  match o with
  | SNew _ => forall h, may_use_new A s (k_resource k (m_hist (s_mem s))) (k_init k h (length (s_arenas s)))
  | SReset i => forall h, may_use A s (k_reset k h i)
  | SDestroy i => forall h, may_use A s (k_destroy k h i)
  | _ => True
  end.

(** The events between two states. *)
Definition added (s s' : sys) : history :=
  firstn (length (m_hist (s_mem s')) - length (m_hist (s_mem s))) (m_hist (s_mem s')).

(** The hook did not make the arena being reset or destroyed obtain a block. *)
Definition tame (s s' : sys) (o : sop) : Prop :=
  match o with
  | SReset i | SDestroy i => got i (added s s') = []
  | _ => True
  end.

Inductive reach_h (e : env) (k : hooks) (A : Z) : sys -> Prop :=
| rh_init : reach_h e k A init
| rh_step s o s' r : reach_h e k A s -> permitted_h A k s o -> step_h e k s o = Ok (s', r) -> tame s s' o ->
    reach_h e k A s'.

Definition span (b : block) : Z * Z := (b_addr b, b_size b).
Definition spans_apart (x y : Z * Z) : Prop := apart (fst x) (snd x) (fst y) (snd y).
Definition ranges_apart (x y : nat * Z * Z) : Prop := apart (snd (fst x)) (snd x) (snd (fst y)) (snd y).

(** What holds of a program that uses arenas correctly. *)
Record sound (e : env) (s : sys) : Prop := {
  (* nothing was given back that was not held, and held blocks do not overlap *)
  so_blocks : exists L, live_blocks (m_hist (s_mem s)) = Some L /\ pairwise spans_apart L;
  (* an arena's blocks, SpaceAllocated() and cleanups() are what it holds *)
  so_arena : forall i a, nth_error (s_arenas s) i = Some (Some a) ->
    map span (a_blocks a) = held (m_hist (s_mem s)) i /\
    SpaceAllocated a = sizes (held (m_hist (s_mem s)) i) /\
    cleanups e a = Ok (Z.of_nat (length (pending (m_hist (s_mem s)) i)));
  (* an arena that is gone holds nothing and owes nothing *)
  so_gone : forall i, ~ alive s i -> held (m_hist (s_mem s)) i = [] /\ pending (m_hist (s_mem s)) i = [];
  (* a range handed out and not taken back is in a block of a living arena *)
  so_range : forall i p n, In (i, p, n) (live_ranges (m_hist (s_mem s))) ->
    alive s i /\ exists q z, In (q, z) (held (m_hist (s_mem s)) i) /\ q + 32 <= p /\ 0 <= n /\ p + n <= q + z;
  so_apart : pairwise ranges_apart (live_ranges (m_hist (s_mem s))) }.
