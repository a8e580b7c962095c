Require Import ZArith List Bool Lia Permutation.
From Verif Require Import Base BaseProofs AlignModel BasicSpec BasicProofs ArenaSpec ArenaModel ArenaStatements
  ArenaProofs ArenaProofs2 ArenaProofs3 ArenaProofs4 ArenaProofs5.
Import ListNotations.
Open Scope Z_scope.

Lemma pending_ext m m' j : ext m m' -> exists l, pending (m_hist m') j = l ++ pending (m_hist m) j.
Proof.
  intros (evs & E & F). rewrite E. clear E. induction F as [|ev evs Hev F IH]; [exists []; auto|].
  destruct IH as (l & IH). destruct ev; simpl in *; try contradiction; try (exists l; exact IH).
  destruct (arena =? j)%nat; [exists ((elem, fn) :: l); simpl; now rewrite IH|exists l; auto].
Qed.

Lemma ext_no_cleanup m m' : ext m m' -> exists evs, m_hist m' = evs ++ m_hist m /\ cleanups_run evs = [] /\
  (forall x, ~ In (EBlockFree x) evs).
Proof.
  intros (evs & E & F). exists evs. split; auto. clear E. split.
  - induction F as [|ev evs Hev F IH]; auto. destruct ev; simpl in *; auto; contradiction.
  - intros x Hx. rewrite Forall_forall in F. exact (F _ Hx).
Qed.

Section S.
Variable e : env.
Variable A : Z.
Hypothesis HA : block_alignment A.
Hypothesis HG : good_block_alloc A (e_alloc e).

Lemma P_ranges_disjoint s : reach e A s ->
  pairwise (fun x y => apart (snd (fst x)) (snd x) (snd (fst y)) (snd y)) (live_ranges (m_hist (s_mem s))).
Proof. intros HR. apply (I_rapart _ _ _ (reach_inv e A HA HG s HR)). Qed.

Lemma P_off_limits s i p n j a b : reach e A s -> In (i, p, n) (live_ranges (m_hist (s_mem s))) ->
  nth_error (s_arenas s) j = Some (Some a) -> In b (a_blocks a) ->
  apart p n (b_addr b) 32 /\ apart p n (b_addr b + b_limit b) (b_size b - b_limit b).
Proof.
  intros HR Hr Hj Hb. pose proof (reach_inv e A HA HG s HR) as HI.
  destruct (I_rng _ _ _ HI i p n Hr) as (Hn & c & d & Hc & Hd & [U1 U2]).
  assert (Hb' : In b (all_blocks (s_arenas s))) by (eapply in_all_blocks; [exact Hj|auto]).
  assert (Hd' : In d (all_blocks (s_arenas s))) by (eapply in_all_blocks; [exact Hc|auto]).
  destruct (Inv_binv _ _ _ b HI Hb') as (ns & [B1 B2 B3 B4 B5 B6 B7 B8 B9]).
  destruct (Inv_binv _ _ _ d HI Hd') as (nsd & [D1 D2 D3 D4 D5 D6 D7 D8 D9]).
  destruct (Inv_blocks_cases _ _ _ b d HI Hb' Hd') as [->|Hap].
  - unfold apart. lia.
  - unfold blk_apart, bspan, apart in *. simpl in Hap. lia.
Qed.

Lemma P_inside s i p n : reach e A s -> In (i, p, n) (live_ranges (m_hist (s_mem s))) ->
  exists b size, In (b, size) (held (m_hist (s_mem s)) i) /\ In (b, size) (live_blocks_list (m_hist (s_mem s))) /\
    b + 32 <= p /\ p + n <= b + size.
Proof.
  intros HR Hr. pose proof (reach_inv e A HA HG s HR) as HI.
  destruct (I_rng _ _ _ HI i p n Hr) as (Hn & c & d & Hc & Hd & [U1 U2]).
  exists (b_addr d), (b_size d).
  destruct (I_arena _ _ _ HI i c Hc) as (nss & HAi). pose proof HAi as [P1 P2 P3 P4 P5].
  assert (Hd' : In d (all_blocks (s_arenas s))) by (eapply in_all_blocks; [exact Hc|auto]).
  split; [rewrite P5; now apply (in_map bspan)|]. split.
  - destruct (I_live _ _ _ HI) as (L & E & P). unfold live_blocks_list. rewrite E.
    eapply Permutation_in; [symmetry; exact P|]. now apply (in_map bspan).
  - destruct (Inv_binv _ _ _ d HI Hd') as (nsd & [D1 D2 D3 D4 D5 D6 D7 D8 D9]). lia.
Qed.

Lemma P_returned s i o s' r n al : reach e A s -> permitted A s (SOp i o) ->
  step e s (SOp i o) = Ok (s', r) -> op_range o = Some (n, al) -> r <> 0 ->
  0 < r /\ r mod al = 0 /\ exists j, served_by s i o j /\ In (j, r, n) (live_ranges (m_hist (s_mem s'))).
Proof.
  intros HR (H1 & H2 & H3) HS Ho Hr. pose proof (reach_inv e A HA HG s HR) as HI.
  destruct (exec_ok e A HA HG o i s HI H1 H2 H3) as (s2 & r2 & E & _ & HP). simpl in HS. rewrite E in HS. inv HS.
  apply HP; auto.
Qed.

Lemma P_op_post s i o s' r : reach e A s -> permitted A s (SOp i o) -> step e s (SOp i o) = Ok (s', r) -> op_post A s s'.
Proof.
  intros HR (H1 & H2 & H3) HS. pose proof (reach_inv e A HA HG s HR) as HI.
  destruct (exec_ok e A HA HG o i s HI H1 H2 H3) as (s2 & r2 & E & HP & _). simpl in HS. rewrite E in HS. inv HS. auto.
Qed.

Lemma P_reset s i s' r : reach e A s -> permitted A s (SReset i) -> step e s (SReset i) = Ok (s', r) ->
  exists a a' front b evs,
    nth_error (s_arenas s) i = Some (Some a) /\ nth_error (s_arenas s') i = Some (Some a') /\
    held (m_hist (s_mem s)) i = front ++ [b] /\
    r = SpaceAllocated a /\
    m_hist (s_mem s') = CReset i :: evs ++ m_hist (s_mem s) /\
    cleanups_run evs = pending (m_hist (s_mem s)) i /\ pending (m_hist (s_mem s')) i = [] /\
    (forall x, In (EBlockFree x) evs <-> In x (map fst front)) /\
    held (m_hist (s_mem s')) i = [b] /\
    SpaceAllocated a' = snd b /\ SpaceRemains e a' = Ok (snd b - 32) /\
    a' = {| a_opts := a_opts a;
            a_blocks := [{| b_addr := fst b; b_pos := 32; b_size := snd b; b_limit := snd b |}];
            a_resource := a_resource a; a_cookie := a_cookie a; a_space := snd b |} /\
    (forall j, j <> i -> nth_error (s_arenas s') j = nth_error (s_arenas s) j /\
       held (m_hist (s_mem s')) j = held (m_hist (s_mem s)) j /\
       pending (m_hist (s_mem s')) j = pending (m_hist (s_mem s)) j) /\
    reports evs = hook_part (o_on_reset (a_opts a)) (HReset i (a_cookie a) (SpaceAllocated a) (total_unused (a_blocks a))).
Proof.
  intros HR (a & Hi & Hs) HS. pose proof (reach_inv e A HA HG s HR) as HI.
  simpl in HS. unfold on_arena in HS. rewrite (get_arena_ok s i a Hi) in HS. cbn [bind] in HS.
  apply (space_blocks A _ _ _ _ HI Hi) in Hs. destruct (list_snoc _ Hs) as (front & b & Eb).
  destruct (I_arena _ _ _ HI i a Hi) as (nss & HAi). pose proof HAi as [P1 P2 P3 P4 P5].
  destruct (Reset_ok e A _ _ i a front b HI Hi Eb)
    as (a' & m' & evs & E & HI' & Hn & (Hh & Hc & Hev) & Hhk & Ho & Hp & Hhe & (C1 & C2 & C3) & Ebl & Esp & Hfr & Hrep).
  rewrite E in HS. cbn [bind] in HS. inv HS.
  exists a, a', (map bspan front), (bspan b), evs.
  split; auto. split; [eapply nth_error_upd_eq; eauto|].
  split; [rewrite P5, Eb, map_app; reflexivity|]. split; [reflexivity|]. split; [exact Hh|]. split; [exact Hc|].
  split; [simpl; rewrite Hh; simpl; now rewrite Nat.eqb_refl|].
  split. { intros x. rewrite map_map. simpl. rewrite in_map_iff. rewrite Hfr. split; intros (c & ? & ?); exists c; auto. }
  split; [exact Hhe|]. split; [exact Esp|].
  assert (HB : exists ns, binv A (m_nodes (s_mem s)) b ns).
  { eapply binv_of; eauto. rewrite Eb. apply in_or_app. simpl; auto. }
  destruct HB as (ns & [B1 B2 B3 B4 B5 B6 B7 B8 B9]).
  split. { unfold SpaceRemains. rewrite Ebl. unfold remain, check_assert. simpl.
    rewrite (proj2 (Z.leb_le _ _)) by lia. simpl. rewrite andb_false_r. simpl.
    rewrite sub64_small by (unfold M64; lia). reflexivity. }
  split. { destruct a'; simpl in *. subst. reflexivity. }
  split. { intros j NE. split; [simpl; now rewrite nth_error_upd_ne by auto|]. auto. }
  exact Hrep.
Qed.

Lemma P_destroy s i s' r : reach e A s -> permitted A s (SDestroy i) -> step e s (SDestroy i) = Ok (s', r) ->
  exists a evs,
    nth_error (s_arenas s) i = Some (Some a) /\ s_arenas s' = upd i None (s_arenas s) /\
    m_hist (s_mem s') = CDestroy i ::
      hook_part (o_on_destroy (a_opts a)) (HDestroy i (a_cookie a) (SpaceAllocated a) (total_unused (a_blocks a)))
      ++ evs ++ m_hist (s_mem s) /\
    cleanups_run evs = pending (m_hist (s_mem s)) i /\ pending (m_hist (s_mem s')) i = [] /\
    (forall x, In (EBlockFree x) evs <-> In x (map fst (held (m_hist (s_mem s)) i))) /\
    held (m_hist (s_mem s')) i = [] /\ reports evs = [] /\
    (forall j, j <> i ->
       held (m_hist (s_mem s')) j = held (m_hist (s_mem s)) j /\
       pending (m_hist (s_mem s')) j = pending (m_hist (s_mem s)) j).
Proof.
  intros HR (a & Hi) HS. pose proof (reach_inv e A HA HG s HR) as HI.
  simpl in HS. rewrite (get_arena_ok s i a Hi) in HS. cbn [bind] in HS.
  destruct (I_arena _ _ _ HI i a Hi) as (nss & HAi). pose proof HAi as [P1 P2 P3 P4 P5].
  destruct (destroy_ok e A _ _ i a HI Hi) as (m' & evs & E & HI' & Hn & Hh & Hc & Hev & Ho & Hp & Hhe & Hfr & Hrep).
  rewrite E in HS. cbn [bind] in HS. inv HS. exists a, evs. cbn [s_mem s_arenas].
  split; auto. split; auto. split; auto. split; auto.
  split; [rewrite Hh; simpl; now rewrite Nat.eqb_refl|].
  split. { intros x. rewrite P5, map_map. simpl. rewrite in_map_iff, Hfr. reflexivity. }
  auto.
Qed.

Lemma P_move s i s' r : reach e A s -> permitted A s (SMove i) -> step e s (SMove i) = Ok (s', r) ->
  let k := length (s_arenas s) in
  exists a old,
    nth_error (s_arenas s) i = Some (Some a) /\ r = Z.of_nat k /\
    nth_error (s_arenas s') k = Some (Some a) /\
    nth_error (s_arenas s') i = Some (Some old) /\
    a_blocks old = [] /\ SpaceAllocated old = 0 /\
    (forall j, j <> i -> (j < k)%nat -> nth_error (s_arenas s') j = nth_error (s_arenas s) j) /\
    m_hist (s_mem s') = CMove i k :: m_hist (s_mem s) /\
    held (m_hist (s_mem s')) k = held (m_hist (s_mem s)) i /\ held (m_hist (s_mem s')) i = [] /\
    pending (m_hist (s_mem s')) k = pending (m_hist (s_mem s)) i /\ pending (m_hist (s_mem s')) i = [].
Proof.
  intros HR (a & Hi) HS k.
  simpl in HS. rewrite (get_arena_ok s i a Hi) in HS. cbn [bind] in HS. inv HS.
  assert (Li : (i < length (s_arenas s))%nat) by (apply nth_error_Some; congruence).
  assert (NE : (k =? i)%nat = false) by (apply Nat.eqb_neq; unfold k; lia).
  eexists a, _. cbn [s_arenas s_mem]. split; auto. split; [reflexivity|]. split; [|split; [|split; [|split; [|split]]]].
  - rewrite nth_error_app2; rewrite length_upd; auto. unfold k. now rewrite Nat.sub_diag.
  - rewrite nth_error_app1 by (rewrite length_upd; auto). eapply nth_error_upd_eq; eauto.
  - reflexivity.
  - reflexivity.
  - intros j Nj Lj. rewrite nth_error_app1 by (rewrite length_upd; auto). apply nth_error_upd_ne; auto.
  - simpl. unfold k in *. rewrite NE, !Nat.eqb_refl. auto 6.
Qed.

Lemma P_failed s i o s' : reach e A s -> permitted A s (SOp i o) -> simple o ->
  step e s (SOp i o) = Ok (s', 0) ->
  s_arenas s' = s_arenas s /\ m_nodes (s_mem s') = m_nodes (s_mem s) /\
  exists j size, m_hist (s_mem s') = EBlockAlloc j size None :: m_hist (s_mem s).
Proof.
  intros HR (H1 & H2 & H3) Hs HS. pose proof (reach_inv e A HA HG s HR) as HI. destruct H1 as (a & Hi).
  destruct o as [bytes al| | |sz num ty|obj fn|bytes al]; try easy; simpl in HS, H2.
  - unfold on_arena in HS. rewrite (get_arena_ok s i a Hi) in HS. cbn [bind] in HS.
    destruct (AllocateAligned_ok e A HA HG _ _ i a bytes al HI Hi (proj1 H2) (proj2 H2)) as (a' & m' & p & E & _ & _ & _ & HP).
    rewrite E in HS. cbn [bind] in HS. inv HS. destruct HP as [(_ & -> & E1 & sz & E2)|(? & _)]; [|lia].
    simpl. rewrite upd_same by auto. eauto.
  - unfold on_arena in HS. rewrite (get_arena_ok s i a Hi) in HS. cbn [bind] in HS. destruct H2 as (K1 & K2 & K3).
    destruct (CreateArray_ok e A HA HG _ _ i a sz num ty HI Hi K1 K2 K3) as (a' & m' & p & E & _ & _ & _ & HP).
    rewrite E in HS. cbn [bind] in HS. inv HS. destruct HP as [(_ & -> & E1 & sz' & E2)|(? & _)]; [|lia].
    simpl. rewrite upd_same by auto. eauto.
  - unfold on_arena in HS. rewrite (get_arena_ok s i a Hi) in HS. cbn [bind] in HS.
    destruct (Own_ok e A HA HG _ _ i a obj fn HI Hi) as (a' & m' & p & E & _ & _ & _ & _ & HP).
    rewrite E in HS. cbn [bind] in HS. inv HS. destruct HP as [(_ & -> & E1 & sz' & E2)|(? & _)]; [|lia].
    simpl. rewrite upd_same by auto. eauto.
  - rewrite (get_arena_ok s i a Hi) in HS. cbn [bind] in HS.
    destruct (H3 eq_refl) as (a2 & j & Hi' & Hj & (b & Hb)). rewrite Hi in Hi'. inv Hi'. rewrite Hj in HS.
    unfold on_arena in HS. rewrite (get_arena_ok s j b Hb) in HS. cbn [bind] in HS.
    destruct (resource_allocate_ok e A HA HG _ _ j b bytes al HI Hb (proj1 H2) (proj2 H2)) as (a' & m' & p & E & _ & _ & _ & HP).
    rewrite E in HS. cbn [bind] in HS. inv HS. destruct HP as [(_ & -> & E1 & sz & E2)|(? & _)]; [|lia].
    simpl. rewrite upd_same by auto. eauto.
Qed.

(** Operations that allocate and register: null means nothing was registered. *)
Lemma P_failed_cleanup s i bytes fn el s' : reach e A s -> permitted A s (SOp i (OAllocateCleanup bytes fn el)) ->
  step e s (SOp i (OAllocateCleanup bytes fn el)) = Ok (s', 0) ->
  (forall j, pending (m_hist (s_mem s')) j = pending (m_hist (s_mem s)) j) /\
  live_ranges (m_hist (s_mem s')) = live_ranges (m_hist (s_mem s)).
Proof.
  intros HR (H1 & H2 & H3) HS. pose proof (reach_inv e A HA HG s HR) as HI. destruct H1 as (a & Hi). simpl in HS, H2.
  unfold on_arena in HS. rewrite (get_arena_ok s i a Hi) in HS. cbn [bind] in HS.
  destruct (AllocateAlignedAndAddCleanup_ok e A HA HG _ _ i a bytes fn el HI Hi H2) as (a' & m' & p & E & _ & _ & _ & HP).
  rewrite E in HS. cbn [bind] in HS. inv HS. destruct HP as [(_ & E1 & E2)|(? & _)]; [|lia]. auto.
Qed.

(** * Block size policy *)
Lemma new_block_size_policy o first need size : good_options o -> req_ok need ->
  new_block_size o first need = Ok size -> block_size_policy (o_normal o) (o_huge o) (o_init o) first need size.
Proof.
  intros (((N0 & N1) & N2 & N3) & ((H0 & H1) & H2) & ((I0 & I1) & I2)) ((R0 & R1) & R2) H.
  unfold new_block_size in H. change kBlockHeaderSize with 32 in H. change kThresholdHuge with 4 in H.
  rewrite add64_small in H by (unfold M64; lia). cbn [bind] in H. unfold block_size_policy.
  set (total := need + 32) in *. assert (Htot : 0 < total) by lia.
  pose proof (Z.div_lt (o_huge o) 4) as Hd4.
  pose proof (Z.mul_div_le (o_huge o) 4 ltac:(lia)) as Hm4. pose proof (Z.div_pos (o_huge o) 4 H0 ltac:(lia)) as Hp4.
  destruct first; cbn [negb bind] in H.
  - inv H. repeat split; intros; try discriminate. 
  - split; [discriminate|].
    destruct (Z.leb_spec total (o_normal o)) as [L1|L1]; cbn [bind] in H.
    { inv H. repeat split; intros; try lia. }
    split; [intros; lia|].
    destruct (Z.leb_spec total (o_huge o / 4)) as [L2|L2]; cbn [bind] in H.
    { split; [|split; [intros; lia|intros; lia]].
      intros _ _. bk H. inv H.
      destruct (AlignUp_spec need (o_normal o)) as (r & E & Hr).
      { split; unfold M64; lia. } { split; auto. } { lia. }
      { exists ((need + o_normal o - 1) / o_normal o * o_normal o). split; [apply round_up_least; lia|].
        pose proof (Z.mul_div_le (need + o_normal o - 1) (o_normal o) ltac:(lia)). unfold M64; lia. }
      rewrite E in H3. inv H3. exists x. split; auto. destruct Hr as (A1 & (q & A2) & A3). split; [|split; auto].
      - rewrite A2. apply Z_mod_mult.
      - intros k K1 K2. apply A3; auto. apply Z.mod_divide in K1; [|lia]. destruct K1 as (q' & ->). exists q'; lia. }
    split; [intros; lia|].
    destruct (Z.ltb_spec (o_huge o / 4) total) as [L3|L3]; [|lia].
    destruct (Z.leb_spec total (o_huge o)) as [L4|L4]; cbn [bind andb] in H; inv H.
    + split; intros; [lia|lia].
    + split; intros; [lia|]. lia.
Qed.
End S.
