(** Arenas whose cleanups use arenas themselves: a destructor that logs into an
    arena, hands an object over to one, or allocates scratch space.  The model
    of arena.hpp:296-306, 396-407, 369-378, 616-657 with the calls written out:
    what was a single event in ArenaModel.v is here the event and the
    operations the cleanup performs. *)
Require Import ZArith List Bool.
From Verif Require Import Base ArenaSpec ArenaModel.
Import ListNotations.
Open Scope Z_scope.

(** What the cleanup [fn] does to arenas when called on [elem].  A cleanup that
    resets, moves, constructs or destroys arenas is not modelled. *)
Definition script := Z -> Z -> list (nat * op).

(** Is the header of the block still this arena's?  The chain from _last_block
    may contain blocks already given back while free_all_blocks runs.  (If a
    block given back is at once handed out again to the same arena, its old and
    its new life are not told apart; the theorems are about executions where
    nothing stale is in the chain.) *)
Definition header_live (m : mem) (i : nat) (b : block) : bool :=
  existsb (fun x => (fst x =? b_addr b) && (snd x =? b_size b)) (held (m_hist m) i).

(** Does the operation go through get_memory_resource()? *)
Fixpoint through_resource (o : op) : bool :=
  match o with
  | OResource _ _ => true
  | OCreate _ _ _ body =>
      (fix any (l : list op) : bool := match l with [] => false | x :: r => through_resource x || any r end) body
  | _ => false
  end.

(** The arenas whose blocks the operation reads. *)
Definition resource_of (s : sys) (i : nat) : list nat :=
  match nth_error (s_arenas s) i with
  | Some (Some a) => match a_resource a with Some j => [j] | None => [] end
  | _ => []
  end.
Definition used_arenas (s : sys) (i : nat) (o : op) : list nat :=
  match o with
  | OResource _ _ => resource_of s i
  | OCreate _ _ _ _ => i :: (if through_resource o then resource_of s i else [])
  | _ => [i]
  end.

(** arena.hpp:566-569, 289-294: the header of _last_block is read. *)
Definition last_live (s : sys) (j : nat) : bool :=
  match nth_error (s_arenas s) j with
  | Some (Some a) => match a_blocks a with [] => true | b :: _ => header_live (s_mem s) j b end
  | _ => true
  end.

(** arena.cc:110-117: with on_arena_newblock installed every header of the
    chain is read when a block is added. *)
Definition walk_live (s s' : sys) (j : nat) : bool :=
  match nth_error (s_arenas s) j, nth_error (s_arenas s') j with
  | Some (Some a), Some (Some a') =>
      if o_on_newblock (a_opts a) && (length (a_blocks a) <? length (a_blocks a'))%nat
      then forallb (header_live (s_mem s) j) (a_blocks a) else true
  | _, _ => true
  end.

Section WithEnv.
Variable e : env.
Variable w : script.

(** An operation called from inside a cleanup. *)
Definition exec_live (o : op) (i : nat) (s : sys) : res sys :=
  if negb (forallb (last_live s) (used_arenas s i o)) then Undef else
  do (s', _) <- exec e o i s;
  if forallb (walk_live s s') (used_arenas s i o) then Ok s' else Undef.

Fixpoint run_script (l : list (nat * op)) (s : sys) : res sys :=
  match l with
  | [] => Ok s
  | (j, o) :: r => do s1 <- exec_live o j s; run_script r s1
  end.

Definition emits (s : sys) (ev : event) : sys :=
  {| s_arenas := s_arenas s; s_mem := emit (s_mem s) ev |}.

(** arena.hpp:296-306 run_cleanups: first and last are computed before the
    first call, so a node registered meanwhile is not visited. *)
Fixpoint run_nodes_r (fuel : nat) (node last : Z) (s : sys) : res sys :=
  if last <=? node then Ok s else
  match fuel with
  | O => Undef
  | S k =>
      match m_nodes (s_mem s) node with
      | None => Undef
      | Some x =>
          do s1 <- run_script (w (n_elem x) (n_fn x)) (emits s (ECleanup (n_elem x) (n_fn x)));
          run_nodes_r k (node + kCleanupNodeSize) last s1
      end
  end.

Definition run_cleanups_r (b : block) (s : sys) : res sys :=
  run_nodes_r (Z.to_nat ((b_size b - b_limit b) / kCleanupNodeSize + 1))
              (add64 (b_addr b) (b_limit b)) (add64 (b_addr b) (b_size b)) s.

(** arena.hpp:616-632 free_all_blocks: [prev] and [remain()] are read before
    the cleanups run; _last_block keeps pointing to the newest block until the
    end.  An allocation by a cleanup changes only the header _last_block points
    to, so the older headers are as they were at the start. *)
Fixpoint free_all_r (l : list block) (s : sys) (acc : Z) : res (sys * Z) :=
  match l with
  | [] => Ok (s, acc)
  | b :: r =>
      do k <- remain e b;
      do s1 <- run_cleanups_r b s;
      free_all_r r (emits s1 (EBlockFree (b_addr b))) (add64 acc k)
  end.

(** arena.hpp:637-657 free_blocks_except_head *)
Fixpoint free_except_head_r (l : list block) (s : sys) (acc : Z) : res (block * sys * Z) :=
  match l with
  | [] => if e_debug e then AssertFail else Undef
  | [b] => do k <- remain e b; Ok (b, s, add64 acc k)
  | b :: r =>
      do k <- remain e b;
      do s1 <- run_cleanups_r b s;
      free_except_head_r r (emits s1 (EBlockFree (b_addr b))) (add64 acc k)
  end.

(** arena.cc:128-133: _pos and _limit of the block Reset() is called on, the
    oldest one of the chain. *)
Fixpoint reset_oldest (l : list block) : list block :=
  match l with
  | [] => []
  | [b] => [{| b_addr := b_addr b; b_pos := kBlockHeaderSize; b_size := b_size b; b_limit := b_size b |}]
  | b :: r => b :: reset_oldest r
  end.

(** arena.hpp:396-407 Reset.  _last_block is set to the oldest block and
    _space_allocated to its size before that block's cleanups run, so a block
    added by one of these stays in the chain. *)
Definition Reset_r (i : nat) (s : sys) : res (sys * Z) :=
  do a <- get_arena s i;
  do (b, s1, waste) <- free_except_head_r (a_blocks a) s 0;
  do a1 <- get_arena s1 i;
  let m2 := if o_on_reset (a_opts a1)
            then emit (s_mem s1) (HReset i (a_cookie a1) (a_space a1) waste) else s_mem s1 in
  let reset_size := a_space a1 in
  let s2 := put s1 i {| a_opts := a_opts a1; a_blocks := [b]; a_resource := a_resource a1;
                        a_cookie := a_cookie a1; a_space := b_size b |} m2 in
  do s3 <- run_cleanups_r b s2;
  do a3 <- get_arena s3 i;
  Ok (put s3 i (set_blocks a3 (reset_oldest (a_blocks a3))) (emit (s_mem s3) (CReset i)), reset_size).

(** arena.hpp:369-378 destructor *)
Definition destroy_r (i : nat) (s : sys) : res (sys * Z) :=
  do a <- get_arena s i;
  do (s1, waste) <- free_all_r (a_blocks a) s 0;
  do a1 <- get_arena s1 i;
  let m2 := if o_on_destroy (a_opts a1)
            then emit (s_mem s1) (HDestroy i (a_cookie a1) (a_space a1) waste) else s_mem s1 in
  Ok ({| s_arenas := upd i None (s_arenas s1); s_mem := emit m2 (CDestroy i) |}, 0).

Definition step_r (s : sys) (o : sop) : res (sys * Z) :=
  match o with
  | SReset i => Reset_r i s
  | SDestroy i => destroy_r i s
  | _ => step e s o
  end.

Fixpoint run_r (s : sys) (l : list sop) : res sys :=
  match l with
  | [] => Ok s
  | o :: r => do (s', _) <- step_r s o; run_r s' r
  end.
End WithEnv.
