Require Import ZArith List Bool Lia Permutation.
From Verif Require Import Base BaseProofs AlignModel BasicSpec BasicProofs ArenaSpec ArenaModel ArenaStatements
  ArenaProofs ArenaProofs2 ArenaProofs3 ArenaProofs4 ArenaProofs5 ArenaProofs6 ArenaProofs7
  ArenaReentModel ArenaReentSpec ArenaReentProofs ArenaReentProofs2 ArenaHookModel ArenaHookSpec
  ArenaHookProofs ArenaHookProofs2 ArenaHookProofs3 ArenaHookProofs4.
Import ListNotations.
Open Scope Z_scope.

Section S.
Variable e : env.
Variable k : hooks.
Variable A : Z.
Hypothesis HA : block_alignment A.
Hypothesis HG : good_block_alloc A (e_alloc e).

Lemma Inv_cookie l m i a c : Inv A l m -> nth_error l i = Some (Some a) -> Inv A (upd i (Some (set_cookie a c)) l) m.
Proof.
  intros [H1 H2 H3 H4 H5 H6] Hi. destruct (all_blocks_split l i a Hi) as (X & Y & EX & EU & _).
  constructor; auto.
  - destruct H1 as (L & E & P). exists L. split; auto. rewrite EU. simpl. now rewrite <- EX.
  - intros j x Hj. destruct (Nat.eq_dec i j) as [<-|NE].
    + rewrite (nth_error_upd_eq _ _ _ _ Hi) in Hj. inv Hj. destruct (H3 i a Hi) as (nss & []). exists nss. constructor; auto.
    + rewrite nth_error_upd_ne in Hj by auto. eauto.
  - intros j Hj. apply H4. intros x Hx. destruct (Nat.eq_dec i j) as [<-|NE].
    + eapply Hj. eapply nth_error_upd_eq; eauto. + apply (Hj x). now rewrite nth_error_upd_ne.
  - intros j p n Hr. destruct (H5 j p n Hr) as (Hn & x & b & Hx & Hb & Hu). split; auto.
    destruct (Nat.eq_dec i j) as [<-|NE].
    + rewrite Hi in Hx. inv Hx. eexists _, b. split; [eapply nth_error_upd_eq; eauto|]. auto.
    + exists x, b. rewrite nth_error_upd_ne by auto. auto.
Qed.

Lemma construct_h_ok s o : inv A s -> good_options o ->
  (forall h, may_use_new A s (k_resource k (m_hist (s_mem s))) (k_init k h (length (s_arenas s)))) ->
  let n := length (s_arenas s) in
  exists s' a evs, construct_h e k o s = Ok s' /\ inv A s' /\ m_hist (s_mem s') = evs ++ m_hist (s_mem s) /\
    length (s_arenas s') = S n /\ nth_error (s_arenas s') n = Some (Some a) /\ a_opts a = o /\
    a_resource a = (if k_resource k (m_hist (s_mem s)) then Some n else None) /\
    held (m_hist (s_mem s')) n = got n evs /\ pending (m_hist (s_mem s')) n = registered n evs /\
    cleanups_run evs = [] /\
    (if o_on_init o then exists h1, m_hist (s_mem s') = CNew n :: HInit n (a_cookie a) :: h1 /\ a_cookie a = e_cookie e h1
     else a_cookie a = 0 /\ a_blocks a = []) /\
    others_follow n s s' evs.
Proof.
  intros HI HO HM n. unfold construct_h. fold n.
  set (ok := k_resource k (m_hist (s_mem s))) in *.
  set (m0 := if ok then s_mem s else emit (s_mem s) ELog).
  set (lg := if ok then [] else [ELog]).
  set (a0 := {| a_opts := o; a_blocks := []; a_resource := if ok then Some n else None; a_cookie := 0; a_space := 0 |}).
  set (s0 := {| s_arenas := s_arenas s ++ [Some a0]; s_mem := m0 |}).
  assert (Em : m_hist m0 = lg ++ m_hist (s_mem s)) by (unfold m0, lg; destruct ok; reflexivity).
  assert (HI0 : inv A s0).
  { unfold inv, s0. cbn [s_arenas s_mem]. apply Inv_new; auto. unfold m0. destruct ok; [exact HI|]. apply Inv_quiet; [exact I|exact HI]. }
  assert (Hn0 : nth_error (s_arenas s0) n = Some (Some a0)).
  { unfold s0, n. cbn [s_arenas]. rewrite nth_error_app2, Nat.sub_diag by lia. reflexivity. }
  assert (Hold : forall j x, nth_error (s_arenas s) j = Some x -> nth_error (s_arenas s0) j = Some x).
  { intros j x Hj. unfold s0. cbn [s_arenas]. rewrite nth_error_app1; auto. apply nth_error_Some. congruence. }
  destruct (I_dead _ _ _ HI n) as [D1 D2]. { intros a. unfold n. rewrite nth_error_length_none. congruence. }
  assert (Q0 : forall j, held (lg ++ m_hist (s_mem s)) j = held (m_hist (s_mem s)) j /\ pending (lg ++ m_hist (s_mem s)) j = pending (m_hist (s_mem s)) j).
  { intros j. unfold lg. destruct ok; auto. }
  assert (G0 : forall j, got j lg = [] /\ registered j lg = []) by (intros j; unfold lg; destruct ok; auto).
  assert (C0 : cleanups_run lg = []) by (unfold lg; destruct ok; auto).
  assert (OTH : forall j aj, nth_error (s_arenas s) j = Some (Some aj) ->
     SpaceAllocated aj = sizes (map bspan (a_blocks aj)) /\ held (m_hist (s_mem s)) j = map bspan (a_blocks aj)).
  { intros j aj Hj. destruct (I_arena _ _ _ HI j aj Hj) as (nss & [_ _ _ P4 P5]). split; auto.
    unfold SpaceAllocated. now rewrite P4, total_size_sizes. }
  destruct (o_on_init o) eqn:Eo.
  - destruct (run_script_ok e A HA HG (k_init k (m_hist m0) n) s0 HI0) as (s1 & evs & E1 & N & C).
    { intros j p Hin. destruct (HM _ _ _ Hin) as (H1 & H2). fold n in H2.
      assert (AL : forall j, alive s j -> alive s0 j) by (intros i (x & Hx); exists x; auto).
      destruct H2 as [(H2 & H3)|(-> & H3)].
      - split; auto. split; auto. intros Hu. destruct (H3 Hu) as (x & q & Hx & Hq & Ha). exists x, q. auto.
      - split; [exists a0; auto|]. split; auto. intros Hu. exists a0, n. split; auto. simpl. rewrite (H3 Hu). split; auto. exists a0; auto. }
    rewrite E1. cbn [bind]. pose proof (in_frame _ _ _ _ N n) as FR. rewrite Hn0 in FR. unfold cfg_rel in FR.
    destruct (nth_error (s_arenas s1) n) as [[a1|]|] eqn:En1; try easy.
    rewrite (get_arena_ok s1 n a1 En1). cbn [bind]. cbv zeta.
    set (c := e_cookie e (m_hist (s_mem s1))).
    assert (Eh : m_hist (s_mem s1) = evs ++ lg ++ m_hist (s_mem s)) by (rewrite (in_hist _ _ _ _ N); simpl; now rewrite Em).
    eexists _, (set_cookie a1 c), (CNew n :: HInit n c :: evs ++ lg). split; [reflexivity|].
    unfold inv, put. cbn [s_arenas s_mem].
    split. { apply Inv_quiet; [exact I|]. apply Inv_quiet; [exact I|]. apply Inv_cookie; auto. exact (in_inv _ _ _ _ N). }
    split. { simpl. rewrite Eh. now rewrite <- app_assoc. }
    split. { rewrite length_upd. pose proof (in_frame _ _ _ _ N) as FR'.
      assert (LE : length (s_arenas s0) = S n) by (unfold s0, n; cbn [s_arenas]; rewrite app_length; simpl; lia).
      apply Nat.le_antisymm.
      - apply Nat.nlt_ge. intro X. assert (K : nth_error (s_arenas s1) (S n) <> None) by (apply nth_error_Some; lia).
        specialize (FR' (S n)). unfold cfg_rel in FR'. rewrite (proj2 (nth_error_None (s_arenas s0) (S n))) in FR' by lia.
        destruct (nth_error (s_arenas s1) (S n)) as [[|]|]; easy.
      - apply (proj1 (nth_error_Some (s_arenas s1) n)). congruence. }
    split; [eapply nth_error_upd_eq; eauto|].
    destruct FR as (R1 & R2 & R3). 
    split. { simpl. rewrite R1. reflexivity. }
    split. { simpl. rewrite R2. reflexivity. }
    assert (GT : forall j, got j (evs ++ lg) = got j evs) by (intros j; rewrite got_app; destruct (G0 j) as [-> _]; apply app_nil_r).
    assert (RT : registered n (evs ++ lg) = registered n evs) by (rewrite registered_app; destruct (G0 n) as [_ ->]; apply app_nil_r).
    split. { simpl. rewrite Eh, (inner_held _ _ _ (in_evs _ _ _ _ N)), GT. destruct (Q0 n) as [-> _]. now rewrite D2, app_nil_r. }
    split. { simpl. rewrite Eh, (inner_pending _ _ _ (in_evs _ _ _ _ N)), RT. destruct (Q0 n) as [_ ->]. now rewrite D1, app_nil_r. }
    split. { simpl. now rewrite cleanups_run_app, C, C0. }
    split. { exists (m_hist (s_mem s1)). split; reflexivity. }
    intros j aj NE Hj. destruct (inner_others A _ _ _ HI0 N j aj (Hold _ _ Hj)) as (aj1 & J1 & J2 & J3 & J4).
    exists aj1. cbn [s_arenas s_mem]. rewrite nth_error_upd_ne by auto. split; auto. cbv zeta. simpl got. rewrite GT. fold bspan.
    split; auto. rewrite <- J2. split; auto.
  - eexists _, a0, (CNew n :: lg). split; [reflexivity|]. unfold inv, emits. cbn [s_arenas s_mem].
    split. { apply Inv_quiet; [exact I|exact HI0]. }
    split. { simpl. now rewrite Em. }
    split. { unfold s0, n. cbn [s_arenas]. rewrite app_length. simpl. lia. }
    split; [exact Hn0|]. split; [reflexivity|]. split; [reflexivity|].
    assert (EH : m_hist (emit (s_mem s0) (CNew n)) = CNew n :: lg ++ m_hist (s_mem s)) by (simpl; now rewrite Em).
    rewrite EH. destruct (Q0 n) as [Q1 Q2]. destruct (G0 n) as [G1 G2].
    split. { transitivity (held (lg ++ m_hist (s_mem s)) n); [reflexivity|]. rewrite Q1, D2. symmetry. exact G1. }
    split. { transitivity (pending (lg ++ m_hist (s_mem s)) n); [reflexivity|]. rewrite Q2, D1. symmetry. exact G2. }
    split; [exact C0|]. split; [split; reflexivity|].
    intros j aj NE Hj. exists aj. cbn [s_arenas s_mem]. split; [apply Hold; auto|]. cbv zeta. change (got j (CNew n :: lg)) with (got j lg). destruct (G0 j) as [-> _]. simpl app.
    split; auto. rewrite EH. change (held (CNew n :: lg ++ m_hist (s_mem s)) j) with (held (lg ++ m_hist (s_mem s)) j).
    destruct (Q0 j) as [-> _]. apply (OTH j aj Hj).
Qed.

Lemma cleanups_count s i a : inv A s -> nth_error (s_arenas s) i = Some (Some a) ->
  cleanups e a = Ok (Z.of_nat (length (pending (m_hist (s_mem s)) i))).
Proof.
  intros HI Hi. destruct (I_arena _ _ _ HI i a Hi) as (nss & HAi). pose proof HAi as [P1 P2 P3 P4 P5].
  rewrite P3, map_length. unfold cleanups.
  pose proof (Inv_space_bound _ _ _ _ _ HI Hi) as HS. rewrite P4 in HS.
  assert (G : forall acc, 0 <= acc -> acc + total_size (a_blocks a) < M64 ->
     cleanups_of e (a_blocks a) acc = Ok (acc + Z.of_nat (length (concat nss)))).
  { clear - P2. induction P2 as [|b ns l nss HB HF IH]; intros acc H0 H1; simpl in *.
    - now rewrite Z.add_0_r.
    - unfold block_cleanups. pose proof HB as [B1 B2 B3 B4 B5 B6 B7 B8 B9].
      assert (0 <= total_size l) by (pose proof (total_unused_bound _ _ _ _ HF); lia).
      rewrite kC16. rewrite sub64_small by (unfold M64; lia). rewrite B8.
      rewrite (Z.mul_comm 16), Z_mod_mult, Z_div_mult by lia. unfold check_assert. simpl. rewrite andb_false_r. cbn [bind].
      rewrite add64_small by (unfold M64 in *; lia). rewrite IH by lia. rewrite app_length. f_equal. lia. }
  rewrite G by (unfold M64; lia). reflexivity.
Qed.

Lemma inv_sound s : inv A s -> sound e s.
Proof.
  intros HI. pose proof HI as [H1 H2 H3 H4 H5 H6]. constructor.
  - destruct H1 as (L & E & _). exists L. split; auto. unfold live_blocks_list in H2. now rewrite E in H2.
  - intros i a Hi. destruct (H3 i a Hi) as (nss & [P1 P2 P3 P4 P5]). split; [now rewrite P5|]. split.
    + unfold SpaceAllocated. now rewrite P4, P5, total_size_sizes.
    + now apply cleanups_count.
  - intros i Hi. destruct (H4 i) as [Q1 Q2]; auto. intros a Ha. apply Hi. now exists a.
  - intros i p n Hr. destruct (H5 i p n Hr) as (Hn & a & b & Hi & Hb & Hu). split; [now exists a|].
    destruct (H3 i a Hi) as (nss & HAi). pose proof (ai_held _ _ _ _ _ HAi) as P5.
    exists (b_addr b), (b_size b). rewrite P5. split; [apply (in_map bspan), Hb|].
    destruct (binv_of _ _ _ _ _ b HAi Hb) as (ns & []). unfold in_used in Hu. lia.
  - exact H6.
Qed.

Lemma added_app s s' evs : m_hist (s_mem s') = evs ++ m_hist (s_mem s) -> added s s' = evs.
Proof.
  intros E. unfold added. rewrite E, app_length, Nat.add_sub, firstn_app, Nat.sub_diag, firstn_all. simpl. apply app_nil_r.
Qed.

Lemma step_h_ok s o : inv A s -> permitted_h A k s o ->
  exists s' r, step_h e k s o = Ok (s', r) /\ (tame s s' o -> inv A s').
Proof.
  intros HI [HP HK]. destruct o as [o|i o|i|i|i].
  - destruct (construct_h_ok s o HI HP HK) as (s' & a & evs & E & HI' & _). simpl. rewrite E. cbn [bind]. eauto.
  - destruct (step_ok e A HA HG s (SOp i o) HI HP) as (s' & r & E & HI'). eauto.
  - destruct HP as (a & Hi & Hs). apply (space_blocks A _ _ _ _ HI Hi) in Hs. destruct (list_snoc _ Hs) as (front & b & Eb).
    destruct (Reset_h_ok e k A HA HG s i a front b HI Hi Eb HK) as (s' & r & a' & evs & p1 & p2 & E & Eh & _ & _ & _ & _ & _ & _ & _ & _ & _ & _ & HI').
    exists s', r. split; auto. simpl. rewrite (added_app _ _ _ Eh). auto.
  - destruct (step_ok e A HA HG s (SMove i) HI HP) as (s' & r & E & HI'). eauto.
  - destruct HP as (a & Hi).
    destruct (destroy_h_ok e k A HA HG s i a HI Hi HK) as (s' & evs & E & Eh & _ & _ & _ & _ & _ & HI').
    exists s', 0. split; auto. simpl. rewrite (added_app _ _ _ Eh). auto.
Qed.

Lemma reach_h_inv s : reach_h e k A s -> inv A s.
Proof.
  induction 1 as [|s o s' r HR IH HP HS HT]; [exact (Inv_init A)|].
  destruct (step_h_ok s o IH HP) as (s2 & r2 & E & HI). rewrite HS in E. inv E. auto.
Qed.
End S.
