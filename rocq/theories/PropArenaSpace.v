(** Property C80: how much memory an arena holds compared with what its client
    asked for. *)
Require Import ZArith List Bool Lia.
From Verif Require Import Base BaseProofs ArenaSpec ArenaModel ArenaStatements ArenaSpaceStatements ArenaCases
  ArenaSpaceProofs ArenaSpaceProofs2.
Import ListNotations.
Open Scope Z_scope.

Section Space.
Variable e : env.
Variable A : Z.
Hypothesis HA : block_alignment A.
Hypothesis HG : good_block_alloc A (e_alloc e).

(** C80: at most four fifths of the memory held is unused, once the oldest
    block and one block of the normal size are set aside. *)
Theorem C80_overhead : forall s i a front x,
  reach e A s -> nth_error (s_arenas s) i = Some (Some a) -> held (m_hist (s_mem s)) i = front ++ [x] ->
  SpaceAllocated a <= snd x + o_normal (a_opts a) + 5 * (SpaceAllocated a - total_unused (a_blocks a)).
Proof. exact (P_overhead e A HA HG). Qed.

(** C80: as long as block_alloc has not failed, the bytes in use are paid for
    by ranges still handed out and cleanups still pending. *)
Theorem C80_used : forall s i a,
  reach e A s -> nth_error (s_arenas s) i = Some (Some a) -> no_failure (m_hist (s_mem s)) ->
  SpaceAllocated a - total_unused (a_blocks a) <= 32 + charge (m_hist (s_mem s)) i.
Proof. exact (P_linear e A HA HG). Qed.

(** C80: the memory held is linear in what was asked for. *)
Theorem C80_linear : forall s i a front x,
  reach e A s -> nth_error (s_arenas s) i = Some (Some a) -> no_failure (m_hist (s_mem s)) ->
  held (m_hist (s_mem s)) i = front ++ [x] ->
  sizes (held (m_hist (s_mem s)) i) <= snd x + o_normal (a_opts a) + 5 * (32 + charge (m_hist (s_mem s)) i).
Proof. exact (P_held_linear e A HA HG). Qed.
End Space.

(** Three blocks, eight ranges, four cleanups. *)
Example C80_busy : after env32 32 busy (fun s =>
  no_failure (m_hist (s_mem s)) /\
  (exists front x, held (m_hist (s_mem s)) 0 = front ++ [x] /\ snd x = 4096) /\
  sizes (held (m_hist (s_mem s)) 0) = 2109440 /\ charge (m_hist (s_mem s)) 0 = 605467 /\
  match nth_error (s_arenas s) 0 with
  | Some (Some a) => SpaceAllocated a - total_unused (a_blocks a) = 605176 /\ o_normal (a_opts a) = 4096
  | _ => False end).
Proof.
  apply after_intro. vm_compute. split; [|split; [|repeat split]].
  - intros i n H. repeat (destruct H as [H|H]; [discriminate|]). exact H.
  - exists [(20480, 2097152); (12288, 8192)], (4096, 4096). split; reflexivity.
Qed.

(** The two set-aside terms are needed: blocks of the normal size each opened
    for a small request because the previous one could not take it. *)
Example C80_sawtooth : after env32 32
  [SNew hooked; SOp 0 (OAllocate 4064 8); SOp 0 (OAllocate 8 8); SOp 0 (OAllocate 4064 8); SOp 0 (OAllocate 8 8)] (fun s =>
  held (m_hist (s_mem s)) 0 = [(16384, 4096); (12288, 4096); (8192, 4096); (4096, 4096)] /\
  charge (m_hist (s_mem s)) 0 = 8300).
Proof. apply after_intro. vm_compute. repeat split. Qed.

(** C80_used needs its hypothesis: when the block for the cleanup record of
    AllocateAlignedAndAddCleanup is refused, the memory already taken for the
    object stays taken although the caller gets nullptr (arena.hpp:496-509,
    finding A7). *)
Theorem C80_lost_refuted : after env_small 32 [SNew hooked; SOp 0 (OAllocateCleanup 4050 51 0)] (fun s =>
  live_ranges (m_hist (s_mem s)) = [] /\ pending (m_hist (s_mem s)) 0 = [] /\ charge (m_hist (s_mem s)) 0 = 0 /\
  match nth_error (s_arenas s) 0 with
  | Some (Some a) => SpaceAllocated a - total_unused (a_blocks a) = 4088
  | _ => False end).
Proof. apply after_intro. vm_compute. repeat split. Qed.

Print Assumptions C80_overhead.
Print Assumptions C80_used.
Print Assumptions C80_linear.
Print Assumptions C80_lost_refuted.
