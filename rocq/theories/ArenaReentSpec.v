(** What is asked of cleanups that use arenas, and of Reset() and the
    destructor when there are such cleanups. *)
Require Import ZArith List Bool.
From Verif Require Import Base ArenaSpec ArenaModel ArenaStatements ArenaReentModel.
Import ListNotations.
Open Scope Z_scope.

(** Blocks obtained by arena [i] in a piece of history, newest first. *)
Fixpoint got (i : nat) (h : history) : list (Z * Z) :=
  match h with
  | [] => []
  | EBlockAlloc j n (Some a) :: r => if (j =? i)%nat then (a, n) :: got i r else got i r
  | _ :: r => got i r
  end.

(** Cleanups registered with arena [i] in a piece of history. *)
Fixpoint registered (i : nat) (h : history) : list (Z * Z) :=
  match h with
  | [] => []
  | CRegister j el fn :: r => if (j =? i)%nat then (el, fn) :: registered i r else registered i r
  | _ :: r => registered i r
  end.

(** Every operation of every cleanup is one a client may perform. *)
Definition script_ok (A : Z) (w : script) (s : sys) : Prop :=
  forall el fn j o, In (j, o) (w el fn) ->
    alive s j /\ op_ok A o /\ (uses_resource o = true -> resource_alive s j).

(** The cleanups pending in arena [i] that are kept outside its newest block
    [b] do not use any arena.  ([pending] lists the newest first, and [b] keeps
    as many as fit between its _limit and its end.) *)
Definition newest_only (w : script) (h : history) (i : nat) (b : block) : Prop :=
  forall p1 p2, pending h i = p1 ++ p2 -> 16 * Z.of_nat (length p1) = b_size b - b_limit b ->
    forall el fn, In (el, fn) p2 -> w el fn = [].

(** Those kept outside its oldest block [b] do not. *)
Definition oldest_only (w : script) (h : history) (i : nat) (b : block) : Prop :=
  forall p1 p2, pending h i = p1 ++ p2 -> 16 * Z.of_nat (length p2) = b_size b - b_limit b ->
    forall el fn, In (el, fn) p1 -> w el fn = [].

(** Every arena other than [i] that was alive is alive still; its blocks are
    those it had and, before them, those it obtained in the events [evs], its
    SpaceAllocated() is their total size, and it is what it holds. *)
Definition others_follow (i : nat) (s s' : sys) (evs : history) : Prop :=
  forall j a, j <> i -> nth_error (s_arenas s) j = Some (Some a) ->
    exists a', nth_error (s_arenas s') j = Some (Some a') /\
      let now := got j evs ++ map (fun b => (b_addr b, b_size b)) (a_blocks a) in
      map (fun b => (b_addr b, b_size b)) (a_blocks a') = now /\
      SpaceAllocated a' = sizes now /\
      held (m_hist (s_mem s')) j = now.

(** The arenas whose blocks an operation on arena [i] reads: its own, except
    that get_memory_resource()->allocate reads those of the arena the resource
    belongs to; Create also those its constructor uses. *)
Inductive uses (s : sys) (i : nat) : op -> nat -> Prop :=
| uses_own o : (forall n al, o <> OResource n al) -> uses s i o i
| uses_of_resource n al j a : nth_error (s_arenas s) i = Some (Some a) -> a_resource a = Some j -> uses s i (OResource n al) j
| uses_in_constructor sz ty d body o j : In o body -> uses s i o j -> uses s i (OCreate sz ty d body) j.

(** A block arena [j] has in its chain but no longer holds; the newest one;
    arena [j] got a new block and goes through its chain to tell its hook. *)
Definition stale (s : sys) (j : nat) (b : block) : Prop := ~ In (b_addr b, b_size b) (held (m_hist (s_mem s)) j).
Definition stale_last (s : sys) (j : nat) : Prop :=
  exists a b r, nth_error (s_arenas s) j = Some (Some a) /\ a_blocks a = b :: r /\ stale s j b.
Definition stale_walk (s s' : sys) (j : nat) : Prop :=
  exists a a' b, nth_error (s_arenas s) j = Some (Some a) /\ nth_error (s_arenas s') j = Some (Some a') /\
    o_on_newblock (a_opts a) = true /\ (length (a_blocks a) < length (a_blocks a'))%nat /\ In b (a_blocks a) /\ stale s j b.
