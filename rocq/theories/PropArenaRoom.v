(** Property C100: SpaceRemains() tells whether a request makes the arena ask
    for a block. *)
Require Import ZArith List Bool Lia.
From Verif Require Import Base BaseProofs ArenaSpec ArenaModel ArenaStatements ArenaCases ArenaProofs ArenaProofs4
  ArenaRoomSpec ArenaRoomProofs ArenaRoomProofs2 PropArena.
Import ListNotations.
Open Scope Z_scope.

Section Room.
Variable e : env.
Variable A : Z.
Hypothesis HA : block_alignment A.
Hypothesis HG : good_block_alloc A (e_alloc e).

(** C100: SpaceRemains() is the number of bytes of the newest block, [(p, size)],
    that check() calls unused; they are in one piece, and nothing handed out
    overlaps them.  Missing: an arena without a block ([C100_empty_refuted]). *)
Theorem C100_where_partial : forall s i a p size older,
  reach e A s -> nth_error (s_arenas s) i = Some (Some a) -> held (m_hist (s_mem s)) i = (p, size) :: older ->
  exists n q, SpaceRemains e a = Ok n /\ 0 <= n /\ n mod 8 = 0 /\ p + 32 <= q /\ q + n <= p + size /\
    (forall x, p <= x < p + size -> (check a x = BlockUnUsed <-> q <= x < q + n)) /\
    (forall j r k, In (j, r, k) (live_ranges (m_hist (s_mem s))) -> apart q n r k).
Proof.
  intros s i a p size older HR Hi Hh. pose proof (reach_inv e A HA HG s HR) as HI.
  rewrite (held_blocks A _ _ i a HI Hi) in Hh. destruct (a_blocks a) as [|b rest] eqn:Eb; [discriminate|].
  injection Hh as E1 E2 _. subst p size.
  destruct (waste8 A HA _ _ i a b rest HI Hi Eb) as (_ & R8 & R0).
  destruct (room_place e A HA HG s i a b rest HR Hi Eb) as (P1 & P2 & P3 & P4).
  exists (b_limit b - b_pos b), (b_addr b + b_pos b). split; [exact (remains_ok e A _ _ i a b rest HI Hi Eb)|].
  repeat split; auto; apply P3; auto.
Qed.

(** C100: a request that takes [need] bytes ([takes]: alignment at most 8) and is
    served by arena [j].  If they are there, it succeeds without block_alloc
    being called for any arena, and SpaceRemains() decreases by [need]; if not,
    block_alloc is called for arena [j].  Missing: larger alignments
    ([C100_alignment_refuted]) and constructors that use the arena. *)
Theorem C100_request_partial : forall s i j a o need n s' r,
  reach e A s -> permitted A s (SOp i o) -> served_by s i o j -> nth_error (s_arenas s) j = Some (Some a) ->
  SpaceRemains e a = Ok n -> takes o need -> step e s (SOp i o) = Ok (s', r) ->
  (need <= n -> r <> 0 /\ asks_nothing (m_hist (s_mem s)) (m_hist (s_mem s')) /\
     exists a', nth_error (s_arenas s') j = Some (Some a') /\ SpaceRemains e a' = Ok (n - need) /\
       SpaceAllocated a' = SpaceAllocated a) /\
  (n < need -> asks j (m_hist (s_mem s)) (m_hist (s_mem s'))).
Proof.
  intros s i j a o need n s' r HR HP HV Hj Hn HT HS. pose proof (reach_inv e A HA HG s HR) as HI.
  assert (HI' : Inv A (s_arenas s') (s_mem s')) by (apply (reach_inv e A HA HG); eapply reach_step; eauto).
  destruct (a_blocks a) as [|b rest] eqn:Eb; [unfold SpaceRemains in Hn; rewrite Eb in Hn; discriminate|].
  rewrite (remains_ok e A _ _ j a b rest HI Hj Eb) in Hn. injection Hn as Hn. subst n.
  destruct HP as (_ & Hok & _).
  destruct (op_room e A HA HG s i j o a b rest need s' r HI HV Hj Eb Hok HT HS) as (a' & Hj' & [F N] & R).
  split; [|exact N]. intros K. destruct (F K) as (Q & b' & -> & _ & _ & E). split; [auto|]. split; [exact Q|].
  eexists. split; [exact Hj'|]. split; [|reflexivity]. rewrite (remains_ok e A _ _ j _ b' rest HI' Hj' eq_refl). now rewrite E.
Qed.

(** C100, AllocateAligned with any alignment: enough if there is room for the
    worst placement; a block is asked for if not even the bytes are there. *)
Theorem C100_aligned_partial : forall s i a bytes al n s' r,
  reach e A s -> permitted A s (SOp i (OAllocate bytes al)) -> nth_error (s_arenas s) i = Some (Some a) ->
  SpaceRemains e a = Ok n -> step e s (SOp i (OAllocate bytes al)) = Ok (s', r) ->
  (bytes + al - 8 <= n -> r <> 0 /\ asks_nothing (m_hist (s_mem s)) (m_hist (s_mem s'))) /\
  (n < bytes -> asks i (m_hist (s_mem s)) (m_hist (s_mem s'))).
Proof.
  intros s i a bytes al n s' r HR HP Hi Hn HS. pose proof (reach_inv e A HA HG s HR) as HI.
  destruct (a_blocks a) as [|b rest] eqn:Eb; [unfold SpaceRemains in Hn; rewrite Eb in Hn; discriminate|].
  rewrite (remains_ok e A _ _ i a b rest HI Hi Eb) in Hn. injection Hn as Hn. subst n.
  destruct HP as (_ & (Hb & Hal) & _). exact (aligned_room e A HA s i a b rest bytes al s' r HI Hi Eb Hb Hal HS).
Qed.
End Room.

Print Assumptions C100_where_partial.
Print Assumptions C100_request_partial.
Print Assumptions C100_aligned_partial.

(** ** Cases *)
Definition blocks_asked (h h' : history) : nat :=
  length (filter (fun ev => match ev with EBlockAlloc _ _ _ => true | _ => false end) (firstn (length h' - length h) h')).
Definition after_one (e : env) (s : sys) (i : nat) (o : op) : option (nat * Z) :=
  match step e s (SOp i o) with
  | Ok (s', r) =>
      match nth_error (s_arenas s') i with
      | Some (Some a) => match SpaceRemains e a with
          | Ok n => Some (blocks_asked (m_hist (s_mem s)) (m_hist (s_mem s')), n) | _ => None end
      | _ => None
      end
  | _ => None
  end.

(** 4064 bytes are left by 32 bytes of header; 24 + 8 and two records of 16 are
    taken.  Requests at the boundary, with and without a cleanup record. *)
Example C100_ex : after env32 32 [SNew hooked; SOp 0 (OAllocate 24 8); SOp 0 (OAllocateCleanup 5 51 0); SOp 0 (OOwn 777 53)]
  (fun s => match nth_error (s_arenas s) 0 with
   | Some (Some a) => SpaceRemains env32 a = Ok 4000 /\
       after_one env32 s 0 (OAllocate 4000 8) = Some (0%nat, 0) /\
       after_one env32 s 0 (OAllocate 3997 8) = Some (0%nat, 0) /\
       after_one env32 s 0 (OAllocate 4001 8) = Some (1%nat, 56) /\
       after_one env32 s 0 (OAllocateCleanup 3984 51 0) = Some (0%nat, 0) /\
       after_one env32 s 0 (OAllocateCleanup 3985 51 0) = Some (1%nat, 4048) /\
       after_one env32 s 0 (OCreate 3984 9 (Some 52) []) = Some (0%nat, 0) /\
       after_one env32 s 0 (OCreate 3985 9 (Some 52) []) = Some (1%nat, 4048) /\
       after_one env32 s 0 (OCreate 4000 9 None []) = Some (0%nat, 0) /\
       after_one env32 s 0 (OCreateArray 8 500 9) = Some (0%nat, 0) /\
       after_one env32 s 0 (OCreateArray 8 501 9) = Some (1%nat, 56) /\
       after_one env32 s 0 (OResource 4000 1) = Some (0%nat, 0)
   | _ => False end).
Proof. apply after_intro. vm_compute. repeat split. Qed.

(** Several blocks: only the newest counts, although 56 bytes of the older one
    are unused. *)
Example C100_newest_ex : after env32 32 [SNew hooked; SOp 0 (OAllocate 4008 8); SOp 0 (OAllocate 4000 8); SOp 0 (OOwn 777 53)]
  (fun s => match nth_error (s_arenas s) 0 with
   | Some (Some a) => length (held (m_hist (s_mem s)) 0) = 2%nat /\ SpaceRemains env32 a = Ok 48 /\
       after_one env32 s 0 (OAllocate 48 8) = Some (0%nat, 0) /\ after_one env32 s 0 (OAllocate 56 8) = Some (1%nat, 4008)
   | _ => False end).
Proof. apply after_intro. vm_compute. repeat split. Qed.

(** C100 fails for alignments of more than 8: a block is asked for although
    SpaceRemains() bytes are all that is wanted, and whether that happens depends
    on the position, which the client does not see. *)
Theorem C100_alignment_refuted : after env32 32 [SNew hooked; SOp 0 (OAllocate 24 8)] (fun s =>
  match nth_error (s_arenas s) 0 with
  | Some (Some a) => permitted 32 s (SOp 0 (OAllocate 4040 32)) /\ SpaceRemains env32 a = Ok 4040 /\
      after_one env32 s 0 (OAllocate 4040 32) = Some (1%nat, 24)
  | _ => False end) /\
  after env32 32 [SNew hooked; SOp 0 (OAllocate 24 8); SOp 0 (OOwn 777 53); SOp 0 (OAllocate 8 8)] (fun s =>
  match nth_error (s_arenas s) 0 with
  | Some (Some a) => SpaceRemains env32 a = Ok 4016 /\ after_one env32 s 0 (OAllocate 4016 32) = Some (0%nat, 0)
  | _ => False end).
Proof.
  split; apply after_intro; vm_compute; repeat split; try discriminate; try (eexists; reflexivity); auto.
Qed.
Print Assumptions C100_alignment_refuted.

(** C100 fails for an arena without a block: SpaceRemains() dereferences null. *)
Theorem C100_empty_refuted : after env32 32 [SNew hooked; SNew hooked; SOp 1 (OAllocate 8 8); SMove 1] (fun s =>
  match nth_error (s_arenas s) 0, nth_error (s_arenas s) 1 with
  | Some (Some a), Some (Some b) => SpaceRemains env32 a = Undef /\ SpaceRemains env32 b = Undef
  | _, _ => False end).
Proof. apply after_intro. vm_compute. repeat split. Qed.
Print Assumptions C100_empty_refuted.
