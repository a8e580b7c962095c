(** Properties C03 to C16: the arena.

    Each theorem speaks about every state reachable ([reach], ArenaStatements)
    by permitted operations on any number of arenas, for every allocator
    meeting [good_block_alloc A] (ArenaSpec), every build mode and every
    placement of hooks.  What happened is read off the history of calls
    (ArenaSpec): [live_ranges], [held], [live_blocks], [pending], [reports]. *)
Require Import ZArith List Bool Lia Permutation.
From Verif Require Import Base BaseProofs ArenaSpec ArenaModel ArenaStatements ArenaCases
  ArenaProofs ArenaProofs2 ArenaProofs3 ArenaProofs4 ArenaProofs5 ArenaProofs6 ArenaProofs7 ArenaProofs8.
Import ListNotations.
Open Scope Z_scope.

Section Arena.
Variable e : env.
Variable A : Z.
Hypothesis HA : block_alignment A.
Hypothesis HG : good_block_alloc A (e_alloc e).

(** C03: the ranges handed out and not yet reclaimed do not overlap, whichever
    arenas they come from. Missing: requests of more than 2^62 bytes ([op_ok]);
    near 2^64 they do overlap ([C03_huge_refuted]). *)
Theorem C03_disjoint_partial : forall s, reach e A s ->
  pairwise (fun x y => apart (snd (fst x)) (snd x) (snd (fst y)) (snd y)) (live_ranges (m_hist (s_mem s))).
Proof. exact (P_ranges_disjoint e A HA HG). Qed.

(** C03: nor do they touch the header or the cleanup records of any block
    (missing as above). *)
Theorem C03_off_limits_partial : forall s i p n j a b,
  reach e A s -> In (i, p, n) (live_ranges (m_hist (s_mem s))) ->
  nth_error (s_arenas s) j = Some (Some a) -> In b (a_blocks a) ->
  apart p n (b_addr b) 32 /\ apart p n (b_addr b + b_limit b) (b_size b - b_limit b).
Proof. exact (P_off_limits e A HA HG). Qed.

(** C03/C04/C05: a successful request yields a live range of the size asked
    for at a multiple of the alignment asked for. *)
Theorem C05_returned_aligned : forall s i o s' r n al,
  reach e A s -> permitted A s (SOp i o) ->
  step e s (SOp i o) = Ok (s', r) -> op_range o = Some (n, al) -> r <> 0 ->
  0 < r /\ r mod al = 0 /\ exists j, served_by s i o j /\ In (j, r, n) (live_ranges (m_hist (s_mem s'))).
Proof. exact (P_returned e A HA HG). Qed.

(** C05, second half: cleanup records are constructed at multiples of 8.
    [register_cleanup] is undefined at other addresses, so this is part of: *)
(** C04: no permitted operation fails an assertion or does anything undefined
    (in particular it touches no byte outside the blocks held). *)
Theorem C04_never_faults : forall s o, reach e A s -> permitted A s o ->
  exists s' r, step e s o = Ok (s', r) /\ reach e A s'.
Proof.
  intros s o HR HP. destruct (step_ok e A HA HG s o (reach_inv e A HA HG s HR) HP) as (s' & r & E & _).
  exists s', r. split; auto. eapply reach_step; eauto.
Qed.

Theorem C04_inside : forall s i p n,
  reach e A s -> In (i, p, n) (live_ranges (m_hist (s_mem s))) ->
  exists b size, In (b, size) (held (m_hist (s_mem s)) i) /\ In (b, size) (live_blocks_list (m_hist (s_mem s))) /\
    b + 32 <= p /\ p + n <= b + size.
Proof. exact (P_inside e A HA HG). Qed.

(** C06, for alignments not above that of the blocks. *)
Theorem C06_overaligned_inside_partial : forall s i bytes al s' r,
  reach e A s -> alive s i -> 0 <= bytes <= max_request -> al = 16 \/ al = 32 -> al <= A ->
  step e s (SOp i (OAllocate bytes al)) = Ok (s', r) -> r <> 0 ->
  r mod al = 0 /\ exists b size, In (b, size) (held (m_hist (s_mem s')) i) /\ b + 32 <= r /\ r + bytes <= b + size.
Proof.
  intros s i bytes al s' r HR Hi Hb Hal HlA HS Hr.
  assert (HP : permitted A s (SOp i (OAllocate bytes al))).
  { split; auto. split; [|discriminate]. split; auto. split; auto. }
  destruct (P_returned e A HA HG s i _ s' r bytes al HR HP HS eq_refl Hr) as (_ & Hm & j & -> & Hin).
  split; auto. assert (HR' : reach e A s') by (eapply reach_step; eauto).
  destruct (P_inside e A HA HG s' i r bytes HR' Hin) as (b & size & H1 & _ & H2 & H3). eauto.
Qed.

(** C07: what Reset and destruction run is exactly what is pending, newest
    first ([pending] lists newest first, [cleanups_run] in order of execution);
    nothing stays pending; other arenas keep theirs. *)
Theorem C07_reset_runs_pending : forall s i s' r,
  reach e A s -> permitted A s (SReset i) -> step e s (SReset i) = Ok (s', r) ->
  exists evs, m_hist (s_mem s') = evs ++ m_hist (s_mem s) /\
    cleanups_run evs = pending (m_hist (s_mem s)) i /\ pending (m_hist (s_mem s')) i = [] /\
    forall j, j <> i -> pending (m_hist (s_mem s')) j = pending (m_hist (s_mem s)) j.
Proof.
  intros s i s' r HR HP HS.
  destruct (P_reset e A HA HG s i s' r HR HP HS) as (a & a' & fr & b & evs & _ & _ & _ & _ & E & C & P & _ & _ & _ & _ & _ & O & _).
  exists (CReset i :: evs). split; [exact E|]. split; [exact C|]. split; [exact P|]. intros j Hj. apply (O j Hj).
Qed.

Theorem C07_destroy_runs_pending : forall s i s' r,
  reach e A s -> permitted A s (SDestroy i) -> step e s (SDestroy i) = Ok (s', r) ->
  exists evs, m_hist (s_mem s') = evs ++ m_hist (s_mem s) /\
    cleanups_run evs = pending (m_hist (s_mem s)) i /\ pending (m_hist (s_mem s')) i = [] /\
    forall j, j <> i -> pending (m_hist (s_mem s')) j = pending (m_hist (s_mem s)) j.
Proof.
  intros s i s' r HR HP HS.
  destruct (P_destroy e A HA HG s i s' r HR HP HS) as (a & evs & _ & _ & E & C & P & _ & _ & _ & O).
  eexists. split; [rewrite E, app_comm_cons, app_assoc; reflexivity|]. split.
  - rewrite cleanups_run_app, C. unfold hook_part. destruct (o_on_destroy (a_opts a)); simpl; now rewrite app_nil_r.
  - split; [exact P|]. intros j Hj. apply (O j Hj).
Qed.

(** C07: no allocation, Own or Create runs a cleanup (or frees a block). *)
Theorem C07_only_then : forall s i o s' r,
  reach e A s -> permitted A s (SOp i o) -> step e s (SOp i o) = Ok (s', r) ->
  exists evs, m_hist (s_mem s') = evs ++ m_hist (s_mem s) /\ cleanups_run evs = [] /\ (forall x, ~ In (EBlockFree x) evs).
Proof. exact (P_op_space e A). Qed.

(** C07: what becomes pending: exactly the registrations that succeeded. *)
Theorem C07_own : forall s i obj fn s' r,
  reach e A s -> permitted A s (SOp i (OOwn obj fn)) -> step e s (SOp i (OOwn obj fn)) = Ok (s', r) ->
  (r = 1 /\ pending (m_hist (s_mem s')) i = (obj, fn) :: pending (m_hist (s_mem s)) i) \/
  (r = 0 /\ pending (m_hist (s_mem s')) i = pending (m_hist (s_mem s)) i).
Proof. exact (P_own_registers e A HA HG). Qed.

Theorem C07_allocate_cleanup : forall s i bytes fn el s' r,
  reach e A s -> permitted A s (SOp i (OAllocateCleanup bytes fn el)) ->
  step e s (SOp i (OAllocateCleanup bytes fn el)) = Ok (s', r) ->
  pending (m_hist (s_mem s')) i =
    (if r =? 0 then [] else [(if el =? 0 then r else el, fn)]) ++ pending (m_hist (s_mem s)) i.
Proof. exact (P_alloc_registers e A HA HG). Qed.

(** [l]: what the constructor itself registered. *)
Theorem C07_create : forall s i sz ty dtor body s' r,
  0 <= sz <= max_request ->
  step e s (SOp i (OCreate sz ty dtor body)) = Ok (s', r) ->
  exists l, (body = [] -> l = []) /\
    pending (m_hist (s_mem s')) i =
    (if r =? 0 then [] else match dtor with Some fn => [(r, fn)] | None => [] end) ++ l ++ pending (m_hist (s_mem s)) i.
Proof. exact (P_create_registers e). Qed.

(** Arena::cleanups() counts the pending cleanups. *)
Theorem C07_cleanups_count : forall s i a,
  reach e A s -> nth_error (s_arenas s) i = Some (Some a) ->
  cleanups e a = Ok (Z.of_nat (length (pending (m_hist (s_mem s)) i))).
Proof. exact (P_cleanups_count e A HA HG). Qed.

(** C08: nothing is given back that is not held ([live_blocks] would be
    [None]), and blocks held at the same time are disjoint. *)
Theorem C08_no_bad_free : forall s, reach e A s ->
  exists L, live_blocks (m_hist (s_mem s)) = Some L /\
  pairwise (fun x y => apart (fst x) (snd x) (fst y) (snd y)) L.
Proof. exact (P_no_bad_free e A HA HG). Qed.

(** C08: the blocks not given back are those held by the arenas alive. *)
Theorem C08_partition : forall s, reach e A s ->
  exists L, live_blocks (m_hist (s_mem s)) = Some L /\
  Permutation L (flat_map (fun i => match nth_error (s_arenas s) i with Some (Some _) => held (m_hist (s_mem s)) i | _ => [] end)
                   (seq 0 (length (s_arenas s)))).
Proof. exact (P_partition e A HA HG). Qed.

Theorem C08_all_returned : forall s, reach e A s -> (forall i, ~ alive s i) -> live_blocks (m_hist (s_mem s)) = Some [].
Proof. exact (P_all_returned e A HA HG). Qed.

Theorem C08_destroy_returns_all : forall s i s' r,
  reach e A s -> permitted A s (SDestroy i) -> step e s (SDestroy i) = Ok (s', r) ->
  exists evs, m_hist (s_mem s') = evs ++ m_hist (s_mem s) /\
    (forall x, In (EBlockFree x) evs <-> In x (map fst (held (m_hist (s_mem s)) i))) /\
    held (m_hist (s_mem s')) i = [] /\
    forall j, j <> i -> held (m_hist (s_mem s')) j = held (m_hist (s_mem s)) j.
Proof.
  intros s i s' r HR HP HS.
  destruct (P_destroy e A HA HG s i s' r HR HP HS) as (a & evs & _ & _ & E & _ & _ & F & H & _ & O).
  eexists. split; [rewrite E, app_comm_cons, app_assoc; reflexivity|]. split; [|split; [exact H|]].
  - intros x. rewrite <- F. cbn [app In]. rewrite in_app_iff. unfold hook_part.
    destruct (o_on_destroy (a_opts a)); simpl; intuition discriminate.
  - intros j Hj. apply (O j Hj).
Qed.

(** C09 *)
Theorem C09_space_allocated : forall s i a,
  reach e A s -> nth_error (s_arenas s) i = Some (Some a) ->
  SpaceAllocated a = sizes (held (m_hist (s_mem s)) i).
Proof. exact (P_space e A HA HG). Qed.

(** C10, AllocateAligned, CreateArray, Own and the memory_resource: failure
    changes nothing at all; the only call made is the refused one. *)
Theorem C10_failure_clean : forall s i o s',
  reach e A s -> permitted A s (SOp i o) -> simple o ->
  step e s (SOp i o) = Ok (s', 0) ->
  s_arenas s' = s_arenas s /\ m_nodes (s_mem s') = m_nodes (s_mem s) /\
  exists j size, m_hist (s_mem s') = EBlockAlloc j size None :: m_hist (s_mem s).
Proof. exact (P_failed e A HA HG). Qed.

(** C10, AllocateAlignedAndAddCleanup: nothing handed out, nothing registered.
    (The space may be consumed: [C10_cleanup_space_refuted].) *)
Theorem C10_failure_cleanup_partial : forall s i bytes fn el s',
  reach e A s -> permitted A s (SOp i (OAllocateCleanup bytes fn el)) ->
  step e s (SOp i (OAllocateCleanup bytes fn el)) = Ok (s', 0) ->
  (forall j, pending (m_hist (s_mem s')) j = pending (m_hist (s_mem s)) j) /\
  live_ranges (m_hist (s_mem s')) = live_ranges (m_hist (s_mem s)).
Proof. exact (P_failed_cleanup e A HA HG). Qed.

(** C10/C11: every block asked for has the size the policy prescribes, and a
    refusal makes the operation return null. *)
Theorem C11_block_sizes : forall s i a o s' r,
  reach e A s -> nth_error (s_arenas s) i = Some (Some a) -> op_ok A o ->
  (exists need, room_need o need) ->
  step e s (SOp i o) = Ok (s', r) ->
  exists evs, m_hist (s_mem s') = evs ++ m_hist (s_mem s) /\
  forall j size res, In (EBlockAlloc j size res) evs ->
    j = i /\ (res = None -> r = 0) /\
    forall need, room_need o need ->
    block_size_policy (o_normal (a_opts a)) (o_huge (a_opts a)) (o_init (a_opts a))
      (match held (m_hist (s_mem s)) i with [] => true | _ => false end) need size.
Proof. exact (P_new_blocks e A HA HG). Qed.

(** C12: construction. *)
Theorem C12_new_reports : forall s o s' r,
  reach e A s -> permitted A s (SNew o) -> step e s (SNew o) = Ok (s', r) ->
  let k := length (s_arenas s) in
  exists a, r = Z.of_nat k /\ s_arenas s' = s_arenas s ++ [Some a] /\ a_opts a = o /\ SpaceAllocated a = 0 /\
    held (m_hist (s_mem s')) k = [] /\ pending (m_hist (s_mem s')) k = [] /\
    m_hist (s_mem s') = CNew k :: hook_part (o_on_init o) (HInit k (a_cookie a)) ++ m_hist (s_mem s).
Proof. exact (P_new e A HA HG). Qed.

(** C12: the reports made by an operation are the new blocks (ordinal and
    size), then the allocation if it succeeded. *)
Theorem C12_operation_reports : forall s i a o s' r,
  reach e A s -> nth_error (s_arenas s) i = Some (Some a) -> op_ok A o -> flat o ->
  step e s (SOp i o) = Ok (s', r) ->
  exists evs, m_hist (s_mem s') = evs ++ m_hist (s_mem s) /\
    reports evs =
      (if o_on_newblock (a_opts a)
       then newblock_reports i (a_cookie a) (Z.of_nat (length (held (m_hist (s_mem s)) i))) (obtained i evs) else [])
      ++ (if o_on_alloc (a_opts a) then alloc_report o i (a_cookie a) r else []).
Proof. exact (P_flat_reports e A HA HG). Qed.

(** C12: allocations through the memory_resource report new blocks only. *)
Theorem C12_resource_reports : forall s i j a b bytes al s' r,
  reach e A s -> nth_error (s_arenas s) i = Some (Some b) -> a_resource b = Some j ->
  nth_error (s_arenas s) j = Some (Some a) -> 0 <= bytes <= max_request ->
  step e s (SOp i (OResource bytes al)) = Ok (s', r) ->
  exists evs, m_hist (s_mem s') = evs ++ m_hist (s_mem s) /\
    reports evs =
      (if o_on_newblock (a_opts a)
       then newblock_reports j (a_cookie a) (Z.of_nat (length (held (m_hist (s_mem s)) j))) (obtained j evs) else []).
Proof. exact (P_resource_reports e A HA HG). Qed.

(** C12: Create whose constructor uses the arena: first the block report of
    the object's memory, then whatever the constructor's operations report (run
    one after another from [s2] to [s3]), then the registration's block and the
    object's own allocation report. *)
Theorem C12_create_reports : forall s i a sz ty dtor body s' r,
  reach e A s -> nth_error (s_arenas s) i = Some (Some a) -> 0 <= sz <= max_request ->
  step e s (SOp i (OCreate sz ty dtor body)) = Ok (s', r) ->
  exists evs1 s2 s3 evs3,
    m_hist (s_mem s2) = evs1 ++ m_hist (s_mem s) /\
    reports evs1 = (if o_on_newblock (a_opts a)
       then newblock_reports i (a_cookie a) (Z.of_nat (length (held (m_hist (s_mem s)) i))) (obtained i evs1) else []) /\
    m_hist (s_mem s') = evs3 ++ m_hist (s_mem s3) /\
    ((r = 0 /\ s3 = s2 /\ evs3 = [] /\ forall p, ~ In (CRange i p sz) evs1) \/
     (run e s2 (map (SOp i) body) = Ok s3 /\
      forall a3, nth_error (s_arenas s3) i = Some (Some a3) ->
        reports evs3 =
          (if o_on_newblock (a_opts a3)
           then newblock_reports i (a_cookie a3) (Z.of_nat (length (a_blocks a3))) (obtained i evs3) else []) ++
          (if o_on_alloc (a_opts a3) then alloc_report (OCreate sz ty dtor body) i (a_cookie a3) r else []))).
Proof. exact (P_create_reports e A HA HG). Qed.

(** C12: one report per Reset and per destruction: the space held, and how
    much of it was neither handed out nor used for cleanup records. *)
Theorem C12_reset_reports : forall s i s' r,
  reach e A s -> permitted A s (SReset i) -> step e s (SReset i) = Ok (s', r) ->
  exists a evs, nth_error (s_arenas s) i = Some (Some a) /\ m_hist (s_mem s') = evs ++ m_hist (s_mem s) /\
    reports evs = hook_part (o_on_reset (a_opts a))
      (HReset i (a_cookie a) (sizes (held (m_hist (s_mem s)) i)) (total_unused (a_blocks a))).
Proof.
  intros s i s' r HR HP HS.
  destruct (P_reset e A HA HG s i s' r HR HP HS) as (a & a' & fr & b & evs & Hi & _ & _ & _ & E & _ & _ & _ & _ & _ & _ & _ & _ & R).
  exists a, (CReset i :: evs). split; [exact Hi|]. split; [exact E|].
  rewrite <- (P_space e A HA HG s i a HR Hi), <- R.
  change (CReset i :: evs) with ([CReset i] ++ evs). rewrite reports_app. apply app_nil_r.
Qed.

Theorem C12_destroy_reports : forall s i s' r,
  reach e A s -> permitted A s (SDestroy i) -> step e s (SDestroy i) = Ok (s', r) ->
  exists a evs, nth_error (s_arenas s) i = Some (Some a) /\ m_hist (s_mem s') = evs ++ m_hist (s_mem s) /\
    reports evs = hook_part (o_on_destroy (a_opts a))
      (HDestroy i (a_cookie a) (sizes (held (m_hist (s_mem s)) i)) (total_unused (a_blocks a))).
Proof.
  intros s i s' r HR HP HS.
  destruct (P_destroy e A HA HG s i s' r HR HP HS) as (a & evs & Hi & _ & E & _ & _ & _ & _ & R & _).
  exists a. eexists. split; [exact Hi|]. split; [rewrite E, app_comm_cons, app_assoc; reflexivity|].
  rewrite <- (P_space e A HA HG s i a HR Hi), reports_app, R.
  unfold hook_part. destruct (o_on_destroy (a_opts a)); reflexivity.
Qed.

(** C13, C08 for Reset: all blocks but the oldest ([b], last of the list) are
    given back; the arena is left as a fresh arena holding just [b]. Missing: an
    arena that holds no block, where Reset is undefined ([C13_reset_empty_refuted]). *)
Theorem C13_reset_partial : forall s i s' r,
  reach e A s -> permitted A s (SReset i) -> step e s (SReset i) = Ok (s', r) ->
  exists a a' front b evs,
    nth_error (s_arenas s) i = Some (Some a) /\ nth_error (s_arenas s') i = Some (Some a') /\
    held (m_hist (s_mem s)) i = front ++ [b] /\
    r = SpaceAllocated a /\
    m_hist (s_mem s') = CReset i :: evs ++ m_hist (s_mem s) /\
    cleanups_run evs = pending (m_hist (s_mem s)) i /\ pending (m_hist (s_mem s')) i = [] /\
    (forall x, In (EBlockFree x) evs <-> In x (map fst front)) /\
    held (m_hist (s_mem s')) i = [b] /\
    SpaceAllocated a' = snd b /\ SpaceRemains e a' = Ok (snd b - 32) /\
    a' = {| a_opts := a_opts a;
            a_blocks := [{| b_addr := fst b; b_pos := 32; b_size := snd b; b_limit := snd b |}];
            a_resource := a_resource a; a_cookie := a_cookie a; a_space := snd b |} /\
    (forall j, j <> i -> nth_error (s_arenas s') j = nth_error (s_arenas s) j /\
       held (m_hist (s_mem s')) j = held (m_hist (s_mem s)) j /\
       pending (m_hist (s_mem s')) j = pending (m_hist (s_mem s)) j) /\
    reports evs = hook_part (o_on_reset (a_opts a)) (HReset i (a_cookie a) (SpaceAllocated a) (total_unused (a_blocks a))).
Proof. exact (P_reset e A HA HG). Qed.

(** C14 *)
Theorem C14_move : forall s i s' r,
  reach e A s -> permitted A s (SMove i) -> step e s (SMove i) = Ok (s', r) ->
  let k := length (s_arenas s) in
  exists a old,
    nth_error (s_arenas s) i = Some (Some a) /\ r = Z.of_nat k /\
    nth_error (s_arenas s') k = Some (Some a) /\
    nth_error (s_arenas s') i = Some (Some old) /\
    a_blocks old = [] /\ SpaceAllocated old = 0 /\
    (forall j, j <> i -> (j < k)%nat -> nth_error (s_arenas s') j = nth_error (s_arenas s) j) /\
    m_hist (s_mem s') = CMove i k :: m_hist (s_mem s) /\
    held (m_hist (s_mem s')) k = held (m_hist (s_mem s)) i /\ held (m_hist (s_mem s')) i = [] /\
    pending (m_hist (s_mem s')) k = pending (m_hist (s_mem s)) i /\ pending (m_hist (s_mem s')) i = [].
Proof. exact (P_move e A). Qed.

(** C14: destroying both, in either order. *)
Theorem C14_destroy_both : forall s i s1 s2 s3 r1 r2 r3 (first second : nat),
  reach e A s -> permitted A s (SMove i) -> step e s (SMove i) = Ok (s1, r1) ->
  let k := length (s_arenas s) in
  (first = k /\ second = i) \/ (first = i /\ second = k) ->
  step e s1 (SDestroy first) = Ok (s2, r2) -> step e s2 (SDestroy second) = Ok (s3, r3) ->
  exists evs, m_hist (s_mem s3) = evs ++ m_hist (s_mem s) /\
    cleanups_run evs = pending (m_hist (s_mem s)) i /\
    (forall x, In (EBlockFree x) evs <-> In x (map fst (held (m_hist (s_mem s)) i))) /\
    held (m_hist (s_mem s3)) k = [] /\ held (m_hist (s_mem s3)) i = [].
Proof. exact (P_move_destroy e A HA HG). Qed.

(** C15: exact in both directions, for every 64-bit value [p]. *)
Theorem C15_check : forall s i a p,
  reach e A s -> nth_error (s_arenas s) i = Some (Some a) -> word p ->
  let in_area lo hi := exists b, In b (a_blocks a) /\ b_addr b + lo b <= p < b_addr b + hi b in
  (check a p = BlockHeader <-> in_area (fun _ => 0) (fun _ => 32)) /\
  (check a p = BlockUsed <-> in_area (fun _ => 32) b_pos) /\
  (check a p = BlockUnUsed <-> in_area b_pos b_limit) /\
  (check a p = BlockCleanup <-> in_area b_limit b_size) /\
  (check a p = NotContain <-> forall b n, In (b, n) (held (m_hist (s_mem s)) i) -> ~ (b <= p < b + n)).
Proof. exact (P_check e A HA HG). Qed.

(** C16. Missing: arrays of more than 2^62 bytes; when sizeof(T)*n overflows, or
    nearly does, there is not room ([C16_overflow_refuted], [C16_wrap_refuted]). *)
Theorem C16_array_room_partial : forall s i sz num ty s' r,
  reach e A s -> alive s i -> 0 < sz -> 0 <= num -> sz * num <= max_request ->
  step e s (SOp i (OCreateArray sz num ty)) = Ok (s', r) -> r <> 0 ->
  exists b size, In (b, size) (held (m_hist (s_mem s')) i) /\ b + 32 <= r /\ r + num * sz <= b + size.
Proof.
  intros s i sz num ty s' r HR Hi H1 H2 H3 HS Hr.
  assert (HP : permitted A s (SOp i (OCreateArray sz num ty))) by (repeat split; auto; discriminate).
  destruct (P_returned e A HA HG s i _ s' r _ _ HR HP HS eq_refl Hr) as (_ & _ & j & -> & Hin).
  assert (HR' : reach e A s') by (eapply reach_step; eauto).
  destruct (P_inside e A HA HG s' i r _ HR' Hin) as (b & size & K1 & _ & K2 & K3). eauto.
Qed.
End Arena.

Print Assumptions C03_disjoint_partial.
Print Assumptions C03_off_limits_partial.
Print Assumptions C05_returned_aligned.
Print Assumptions C04_never_faults.
Print Assumptions C04_inside.
Print Assumptions C06_overaligned_inside_partial.
Print Assumptions C07_reset_runs_pending.
Print Assumptions C07_destroy_runs_pending.
Print Assumptions C07_only_then.
Print Assumptions C07_own.
Print Assumptions C07_allocate_cleanup.
Print Assumptions C07_create.
Print Assumptions C07_cleanups_count.
Print Assumptions C08_no_bad_free.
Print Assumptions C08_partition.
Print Assumptions C08_all_returned.
Print Assumptions C08_destroy_returns_all.
Print Assumptions C09_space_allocated.
Print Assumptions C10_failure_clean.
Print Assumptions C10_failure_cleanup_partial.
Print Assumptions C11_block_sizes.
Print Assumptions C12_new_reports.
Print Assumptions C12_operation_reports.
Print Assumptions C12_resource_reports.
Print Assumptions C12_create_reports.
Print Assumptions C12_reset_reports.
Print Assumptions C12_destroy_reports.
Print Assumptions C13_reset_partial.
Print Assumptions C14_move.
Print Assumptions C14_destroy_both.
Print Assumptions C15_check.
Print Assumptions C16_array_room_partial.

(** ** Cases meeting the hypotheses, and failures outside them *)

(** [env32] (ArenaCases) has a good allocator; [busy] is a permitted program
    with two arenas, four blocks, nested construction and five cleanups. *)
Example hypotheses_met : block_alignment 32 /\ good_block_alloc 32 (e_alloc env32) /\
  good_block_alloc 32 (e_alloc env_small) /\
  block_alignment 8 /\ good_block_alloc 8 (e_alloc env8) /\ good_block_alloc 8 (e_alloc env8_release).
Proof.
  split; [unfold block_alignment; auto|]. split; [exact env32_good|]. split; [exact env_small_good|].
  split; [unfold block_alignment; auto|]. split; exact env8_good.
Qed.

(** C03, C04, C09, C07_cleanups_count, C08 *)
Example busy_state : after env32 32 busy (fun s =>
  live_ranges (m_hist (s_mem s)) =
    [(0%nat, 20512, 600000); (0%nat, 17120, 33); (0%nat, 12320, 4800); (0%nat, 4296, 5);
     (0%nat, 4256, 40); (1%nat, 8224, 7); (0%nat, 4152, 100); (0%nat, 4128, 24)] /\
  held (m_hist (s_mem s)) 0 = [(20480, 2097152); (12288, 8192); (4096, 4096)] /\
  held (m_hist (s_mem s)) 1 = [(8192, 4096)] /\
  pending (m_hist (s_mem s)) 0 = [(779, 55); (4256, 52); (777, 53); (4152, 51)] /\
  match nth_error (s_arenas s) 0 with
  | Some (Some a) => SpaceAllocated a = 2109440 /\ cleanups env32 a = Ok 4 /\
      map (check a) [4096; 4128; 4303; 4304; 8144; 8191; 8192; 12288 + 4871; 12288 + 4872; 0; M64 - 1] =
      [BlockHeader; BlockUsed; BlockUsed; BlockUnUsed; BlockCleanup; BlockCleanup; NotContain; BlockUsed; BlockUnUsed; NotContain; NotContain]
  | _ => False
  end).
Proof. apply after_intro. vm_compute. repeat split. Qed.

(** C12: an arena with the default options has no hooks. *)
Example C12_default_options : after env32 32 [SNew default_options; SOp 0 (OAllocate 5000 8); SReset 0; SDestroy 0] (fun s =>
  reports (m_hist (s_mem s)) = [] /\ m_hist (s_mem s) = [CDestroy 0; EBlockFree 4096; CReset 0; CRange 0 4128 5000; EBlockAlloc 0 5032 (Some 4096); CNew 0]).
Proof. apply after_intro. vm_compute. repeat split. Qed.

(** C07, C08, C12, C13: Reset of the busy arena. *)
Example busy_reset : after env32 32 busy (fun s =>
  permitted 32 s (SReset 0) /\
  match step env32 s (SReset 0) with
  | Ok (s', r) => r = 2109440 /\
      firstn 8 (m_hist (s_mem s')) =
        [CReset 0; ECleanup 4152 51; ECleanup 777 53; ECleanup 4256 52; HReset 0 7 2109440 1504264;
         EBlockFree 12288; EBlockFree 20480; ECleanup 779 55] /\
      held (m_hist (s_mem s')) 0 = [(4096, 4096)]
  | _ => False
  end).
Proof.
  apply after_intro. vm_compute. split; [|repeat split]. eexists; split; reflexivity.
Qed.

(** C08_all_returned, C14: move, destroy everything. *)
Example busy_destroyed : after env32 32 (busy ++ [SMove 0; SDestroy 0; SDestroy 2; SDestroy 1]) (fun s =>
  s_arenas s = [None; None; None] /\ live_blocks (m_hist (s_mem s)) = Some [] /\
  cleanups_run (m_hist (s_mem s)) = [(779, 55); (4256, 52); (777, 53); (4152, 51); (778, 54)]).
Proof. apply after_intro. vm_compute. repeat split. Qed.

(** C10, C11: the second block is refused; nothing changes. *)
Example refused : after env_small 32 [SNew hooked; SOp 0 (OAllocate 8 8)] (fun s =>
  permitted 32 s (SOp 0 (OAllocate 5000 8)) /\ simple (OAllocate 5000 8) /\ room_need (OAllocate 5000 8) 5000 /\
  match step env_small s (SOp 0 (OAllocate 5000 8)) with
  | Ok (s', r) => r = 0 /\ m_hist (s_mem s') = EBlockAlloc 0 8192 None :: m_hist (s_mem s)
  | _ => False
  end).
Proof.
  apply after_intro. vm_compute. split; [|repeat split; congruence].
  split; [eexists; reflexivity|]. split; [|congruence]. repeat split; try congruence. left; reflexivity.
Qed.

(** C05, C06, C16: an over-aligned request and an array in 32-aligned blocks. *)
Example overaligned_ok : after env32 32 [SNew hooked; SOp 0 (OAllocate 8 8)] (fun s =>
  match step env32 s (SOp 0 (OAllocate 4000 32)), step env32 s (SOp 0 (OCreateArray 24 10 3)) with
  | Ok (_, r), Ok (_, r') => r = 4160 /\ r' = 4136 | _, _ => False end).
Proof. apply after_intro. vm_compute. repeat split. Qed.

(** C06 fails when the request's alignment exceeds that of the blocks: newBlock
    sizes the block without the padding, and the result overruns it.  In a debug
    build the assertion in Block::alloc fires; in a release build the bytes
    returned extend past the end of the block (arena.cc:139-154, finding A2). *)
Theorem C06_overaligned_refuted :
  (after env8 8 [SNew hooked] (fun s => step env8 s (SOp 0 (OAllocate 4064 16)) = AssertFail)) /\
  (after env8_release 8 [SNew hooked] (fun s =>
     step env8_release s (SOp 0 (OAllocate 4064 16)) = Undef /\
     match nth_error (s_arenas s) 0 with
     | Some (Some a) =>
         match allocateAligned env8_release 0 a (s_mem s) 4064 16 with
         | Ok (_, m', p) => held (m_hist m') 0 = [(4104, 4096)] /\ p = 4144 /\ 4104 + 4096 < p + 4064
         | _ => False
         end
     | _ => False
     end)).
Proof. split; apply after_intro; vm_compute; repeat split. Qed.
Print Assumptions C06_overaligned_refuted.

(** C10 fails for AllocateAlignedAndAddCleanup and Create: when the cleanup
    record cannot be stored null is returned, but the space stays consumed, and
    the object constructed by Create is never destroyed (finding A7). *)
Theorem C10_cleanup_space_refuted : after env_small 32 [SNew hooked; SOp 0 (OAllocate 8 8)] (fun s =>
  permitted 32 s (SOp 0 (OAllocateCleanup 4056 51 0)) /\
  match nth_error (s_arenas s) 0, step env_small s (SOp 0 (OAllocateCleanup 4056 51 0)),
        step env_small s (SOp 0 (OCreate 4056 9 (Some 52) [])) with
  | Some (Some a), Ok (s1, r1), Ok (s2, r2) =>
      SpaceRemains env_small a = Ok 4056 /\ r1 = 0 /\ r2 = 0 /\
      match nth_error (s_arenas s1) 0, nth_error (s_arenas s2) 0 with
      | Some (Some a1), Some (Some a2) => SpaceRemains env_small a1 = Ok 0 /\ SpaceRemains env_small a2 = Ok 0
      | _, _ => False
      end /\
      In (0%nat, 4136, 4056) (live_ranges (m_hist (s_mem s2))) /\ pending (m_hist (s_mem s2)) 0 = []
  | _, _, _ => False
  end).
Proof.
  apply after_intro. vm_compute. split.
  - split; [eexists; reflexivity|]. repeat split; congruence.
  - repeat split. left; reflexivity.
Qed.
Print Assumptions C10_cleanup_space_refuted.

(** C13 without the condition that the arena holds a block: Reset of an arena
    that never allocated asserts or dereferences null (finding A4). *)
Theorem C13_reset_empty_refuted :
  (after env8 8 [SNew hooked] (fun s => alive s 0 /\ step env8 s (SReset 0) = AssertFail)) /\
  (after env8_release 8 [SNew hooked] (fun s => alive s 0 /\ step env8_release s (SReset 0) = Undef)).
Proof. split; apply after_intro; vm_compute; split; try reflexivity; eexists; reflexivity. Qed.
Print Assumptions C13_reset_empty_refuted.

(** C14 and the memory_resource: after a move the new arena's memory_resource
    still refers to the old arena object (finding A6). *)
Theorem C14_resource_refuted :
  after env32 32 [SNew hooked; SMove 0] (fun s =>
    match step env32 s (SOp 1 (OResource 8 8)) with
    | Ok (s', r) => r <> 0 /\ held (m_hist (s_mem s')) 1 = [] /\ held (m_hist (s_mem s')) 0 <> []
    | _ => False end) /\
  after env32 32 [SNew hooked; SMove 0; SDestroy 0] (fun s =>
    alive s 1 /\ step env32 s (SOp 1 (OResource 8 8)) = Undef).
Proof.
  split; apply after_intro; vm_compute; repeat split; try congruence; eexists; reflexivity.
Qed.
Print Assumptions C14_resource_refuted.

(** C16 when sizeof(T)*n does not fit in 64 bits: the overflow is only logged
    and 16 bytes are reserved for 2^60+1 elements (finding A3). *)
Theorem C16_overflow_refuted : after env32 32 [SNew hooked] (fun s =>
  step env32 s (SOp 0 (OCreateArray 16 (2 ^ 60 + 1) 9)) = Undef /\
  match nth_error (s_arenas s) 0 with
  | Some (Some a) =>
      match allocateAligned env32 0 a (s_mem s) (mul64 16 (2 ^ 60 + 1)) 8 with
      | Ok (a', m', p) => p <> 0 /\ SpaceRemains env32 a' = Ok (4096 - 32 - 16)
      | _ => False
      end
  | _ => False
  end).
Proof. apply after_intro. vm_compute. repeat split; congruence. Qed.
Print Assumptions C16_overflow_refuted.

(** C03 for requests near 2^64 bytes (finding A5): [has_enough_space] wraps, the
    request is granted from the current block and its position goes back. After
    2^64 - 40 bytes the next allocation is the block header; after 2^64 - 8 it
    is the range handed out before. ([step] has the caller write to the whole
    range, which is already undefined; so this is about [allocateAligned].) *)
Theorem C03_huge_refuted : after env32 32 [SNew hooked; SOp 0 (OAllocate 8 8)] (fun s =>
  In (0%nat, 4128, 8) (live_ranges (m_hist (s_mem s))) /\ In (4096, 4096) (held (m_hist (s_mem s)) 0) /\
  match nth_error (s_arenas s) 0 with
  | Some (Some a) =>
      match allocateAligned env32 0 a (s_mem s) (2 ^ 64 - 40) 8, allocateAligned env32 0 a (s_mem s) (2 ^ 64 - 8) 8 with
      | Ok (a1, m1, r1), Ok (a2, m2, r2) =>
          r1 <> 0 /\ r2 <> 0 /\
          match allocateAligned env32 0 a1 m1 8 8, allocateAligned env32 0 a2 m2 8 8 with
          | Ok (_, _, r3), Ok (_, _, r4) => r3 = 4096 /\ r4 = 4128
          | _, _ => False end
      | _, _ => False end
  | _ => False end).
Proof. apply after_intro. vm_compute. repeat split; try congruence; auto. Qed.
Print Assumptions C03_huge_refuted.

(** C16 near 2^64: the product does not overflow, nothing is logged, and the
    array reaches past the only block held (finding A5). *)
Theorem C16_wrap_refuted : after env32 32 [SNew hooked; SOp 0 (OAllocate 8 8)] (fun s =>
  1 * (2 ^ 64 - 40) < 2 ^ 64 /\ held (m_hist (s_mem s)) 0 = [(4096, 4096)] /\
  step env32 s (SOp 0 (OCreateArray 1 (2 ^ 64 - 40) 9)) = Undef /\
  match nth_error (s_arenas s) 0 with
  | Some (Some a) =>
      match allocateAligned env32 0 a (s_mem s) (mul64 1 (2 ^ 64 - 40)) 8 with
      | Ok (a', m', p) => p = 4136 /\ held (m_hist m') 0 = [(4096, 4096)]
      | _ => False
      end
  | _ => False
  end).
Proof. apply after_intro. vm_compute. repeat split; congruence. Qed.
Print Assumptions C16_wrap_refuted.
