Require Import ZArith List Bool Lia Permutation.
From Verif Require Import Base BaseProofs AlignModel BasicSpec BasicProofs ArenaSpec ArenaModel ArenaStatements
  ArenaProofs ArenaProofs2 ArenaProofs3 ArenaProofs4 ArenaProofs5 ArenaProofs6 ArenaProofs7
  ArenaReentModel ArenaReentSpec ArenaReentProofs ArenaReentProofs2 ArenaHookModel ArenaHookSpec ArenaHookProofs.
Import ListNotations.
Open Scope Z_scope.

(** * Hooks that use nothing *)
Lemma upd_last {T} (l : list T) x y : upd (length l) x (l ++ [y]) = l ++ [x].
Proof. induction l as [|z l IH]; simpl; auto. now rewrite IH. Qed.

Lemma step_h_plain e k : (forall h i, k_init k h i = []) -> (forall h i, k_reset k h i = []) ->
  (forall h i, k_destroy k h i = []) -> (forall h, k_resource k h = true) -> forall s o, step_h e k s o = step e s o.
Proof.
  intros K1 K2 K3 K4 s o. destruct o as [op|i o|i|i|i]; simpl; auto.
  - unfold construct_h, construct. rewrite K4, K1. cbn [run_script bind].
    destruct (o_on_init op); cbn [bind].
    + unfold get_arena. cbn [s_arenas]. rewrite nth_error_app2, Nat.sub_diag by lia. cbn [nth_error bind].
      unfold put. cbn [s_arenas s_mem]. now rewrite upd_last.
    + reflexivity.
  - unfold Reset_h, on_arena. destruct (get_arena s i) as [a| |] eqn:Ea; cbn [bind]; auto. unfold Reset.
    destruct (free_blocks_except_head e (a_blocks a) (s_mem s) 0) as [[[b m1] waste]| |]; cbn [bind]; auto.
    rewrite K2. cbn [run_script]. destruct (o_on_reset (a_opts a)); cbn [bind].
    + unfold emits, put. cbn [s_arenas s_mem]. unfold get_arena in *. cbn [s_arenas].
      destruct (nth_error (s_arenas s) i) as [[c|]|] eqn:En; try discriminate. inv Ea.
      rewrite (nth_error_upd_eq _ _ _ _ En). cbn [bind a_blocks set_blocks s_mem].
      destruct (block_reset b _) as [[b3 m3]| |]; cbn [bind]; auto. now rewrite upd_upd.
    + unfold put. unfold get_arena in *. cbn [s_arenas].
      destruct (nth_error (s_arenas s) i) as [[c|]|] eqn:En; try discriminate. inv Ea.
      rewrite (nth_error_upd_eq _ _ _ _ En). cbn [bind a_blocks set_blocks s_mem].
      destruct (block_reset b _) as [[b3 m3]| |]; cbn [bind]; auto. now rewrite upd_upd.
  - unfold destroy_h. destruct (get_arena s i) as [a| |] eqn:Ea; cbn [bind]; auto. unfold destroy.
    destruct (free_all_blocks e (a_blocks a) (s_mem s) 0) as [[m1 waste]| |]; cbn [bind]; auto.
    rewrite K3. cbn [run_script]. destruct (o_on_destroy (a_opts a)); cbn [bind]; unfold emits, put; cbn [s_arenas s_mem]; now rewrite upd_upd.
Qed.

(** * A new arena *)
Definition reg (i : nat) (x : node) : event := CRegister i (n_elem x) (n_fn x).
Definition rng (x : nat * Z * Z) : event := CRange (fst (fst x)) (snd (fst x)) (snd x).

Lemma refill_facts i ns rs h : 
  live_blocks (map (reg i) ns ++ map rng rs ++ h) = live_blocks h /\
  live_ranges (map (reg i) ns ++ map rng rs ++ h) = rs ++ live_ranges h /\
  (forall j, pending (map (reg i) ns ++ map rng rs ++ h) j = if (i =? j)%nat then map node_pair ns ++ pending h j else pending h j) /\
  (forall j, held (map (reg i) ns ++ map rng rs ++ h) j = held h j).
Proof.
  induction ns as [|x ns IH]; simpl.
  - induction rs as [|[[a p] n] rs IH]; simpl.
    + split; auto. split; auto. split; auto. intros j. destruct (i =? j)%nat; auto.
    + destruct IH as (H1 & H2 & H3 & H4). rewrite H1, H2. split; [destruct (live_blocks h); auto|]. split; auto.
  - destruct IH as (H1 & H2 & H3 & H4). rewrite H1, H2. split; [destruct (live_blocks h); auto|]. split; auto. split; auto.
    intros j. rewrite H3. destruct (i =? j)%nat; auto.
Qed.

Section S.
Variable e : env.
Variable A : Z.
Hypothesis HA : block_alignment A.
Hypothesis HG : good_block_alloc A (e_alloc e).

(** An emptied block gets back its ranges and cleanups. *)
Lemma Inv_refill l m i c b ns rs : Inv A l m -> nth_error l i = Some (Some c) -> a_blocks c = [empty_block b] ->
  binv A (m_nodes m) b ns -> (forall j p n, In (j, p, n) (live_ranges (m_hist m)) -> j <> i) ->
  (forall j p n, In (j, p, n) rs -> j = i /\ 0 <= n /\ in_used b p n) -> pairwise rng_apart rs ->
  Inv A (upd i (Some (set_blocks c [b])) l)
    {| m_nodes := m_nodes m; m_hist := map (reg i) ns ++ map rng rs ++ m_hist m |}.
Proof.
  intros HI Hi Ec HB NR HR PR. pose proof HI as [H1 H2 H3 H4 H5 H6].
  destruct (refill_facts i ns rs (m_hist m)) as (F1 & F2 & F3 & F4).
  destruct (all_blocks_split l i c Hi) as (X & Y & EX & EU & EO). rewrite Ec in EX.
  constructor; cbn [m_hist m_nodes].
  - destruct H1 as (L & E & P). exists L. rewrite F1. split; auto. rewrite P, EX, EU. simpl. rewrite !map_app. simpl. reflexivity.
  - unfold live_blocks_list in *. rewrite F1. exact H2.
  - intros j a Hj. destruct (Nat.eq_dec i j) as [<-|NE].
    + rewrite (nth_error_upd_eq _ _ _ _ Hi) in Hj. inv Hj. destruct (H3 i c Hi) as (nss & [P1 P2 P3 P4 P5]).
      rewrite Ec in P2, P4, P5. inversion P2 as [|? n0 ? nss' Q1 Q2]; subst. inversion Q2; subst.
      assert (n0 = []). { pose proof (bi_len _ _ _ _ Q1) as Q. simpl in Q. destruct n0; auto. simpl in Q. lia. }
      subst n0. simpl in P3. exists [ns]. constructor; cbn [a_opts a_blocks a_space set_blocks m_nodes m_hist]; auto.
      * rewrite F3, Nat.eqb_refl, P3. simpl. now rewrite !app_nil_r.
      * rewrite F4. exact P5.
    + rewrite nth_error_upd_ne in Hj by auto. destruct (H3 j a Hj) as (nss & [P1 P2 P3 P4 P5]). exists nss. constructor; auto; cbn [m_hist].
      * rewrite F3. destruct (Nat.eqb_spec i j); [congruence|auto].
      * rewrite F4. auto.
  - intros j Hj. rewrite F3, F4. destruct (Nat.eqb_spec i j) as [<-|NE].
    + exfalso. eapply Hj. eapply nth_error_upd_eq; eauto.
    + apply H4. intros a Ha. apply (Hj a). rewrite nth_error_upd_ne; auto.
  - intros j p n Hr. rewrite F2 in Hr. apply in_app_iff in Hr as [Hr|Hr].
    + destruct (HR j p n Hr) as (-> & Hn & Hu). split; auto. eexists _, b. split; [eapply nth_error_upd_eq; eauto|]. split; simpl; auto.
    + pose proof (NR _ _ _ Hr) as NE. destruct (H5 j p n Hr) as (Hn & a & d & Ha & Hd & Hu). split; auto.
      exists a, d. rewrite nth_error_upd_ne by auto. auto.
  - rewrite F2. apply pairwise_app. split; auto. split; auto.
    intros [[j p] n] [[j' p'] n'] Hx Hy. destruct (HR _ _ _ Hx) as (-> & Hn & Hu).
    pose proof (NR _ _ _ Hy) as NE. destruct (H5 _ _ _ Hy) as (Hn' & a & d & Ha & Hd & Hu').
    assert (Hb' : In (empty_block b) (all_blocks l)) by (eapply in_all_blocks; [exact Hi|rewrite Ec; simpl; auto]).
    assert (Hd' : In d (all_blocks l)) by (eapply in_all_blocks; eauto).
    destruct (Inv_binv _ _ _ d HI Hd') as (nd & BD).
    destruct (Inv_blocks_cases _ _ _ _ _ HI Hb' Hd') as [Eq|Ap].
    + (* the block belongs to one arena only *)
      exfalso. pose proof (Inv_blocks_apart _ _ _ HI) as PW. rewrite EX in PW.
      assert (Hin : In d (X ++ Y)) by (eapply EO; eauto).
      assert (B32 : 0 < b_size b) by (destruct HB; lia).
      apply (pairwise_perm _ _ (empty_block b :: (X ++ Y))) in PW.
      * apply pairwise_cons in PW as [PF _]. rewrite Forall_forall in PF. specialize (PF d Hin).
        rewrite <- Eq in PF. unfold blk_apart, apart in PF. simpl in PF. lia.
      * intros x y. unfold blk_apart. apply apart_sym.
      * simpl. symmetry. apply Permutation_middle.
    + unfold rng_apart, blk_apart, apart, in_used, bspan in *. simpl in *. destruct HB, BD. lia.
Qed.

(** * The hook phase *)
Lemma nth_ext_list {T} (l1 : list T) : forall l2, (forall k, nth_error l1 k = nth_error l2 k) -> l1 = l2.
Proof.
  induction l1 as [|x l1 IH]; intros [|y l2] H; auto.
  - now specialize (H O). - now specialize (H O).
  - pose proof (H O) as H0. simpl in H0. inv H0. f_equal. apply IH. intros k. apply (H (S k)).
Qed.
Lemma sr_other i D h hv s sv : sr i D h hv s sv -> forall j, j <> i -> nth_error (s_arenas s) j = nth_error (s_arenas sv) j.
Proof.
  intros [_ HS] j NE. specialize (HS j). unfold oar in HS.
  destruct (nth_error (s_arenas s) j) as [[x|]|], (nth_error (s_arenas sv) j) as [[y|]|]; try easy.
  destruct HS as (E1 & E2 & E3 & E4 & E5 & _). specialize (E5 NE). destruct x, y; simpl in *. congruence.
Qed.
Lemma sr_upd i D h hv s sv x : sr i D h hv s sv -> upd i x (s_arenas s) = upd i x (s_arenas sv).
Proof.
  intros HS. apply nth_ext_list. intros k. destruct (Nat.eq_dec i k) as [<-|NE].
  - pose proof (proj2 HS i) as HO. unfold oar in HO.
    destruct (nth_error (s_arenas s) i) as [y|] eqn:E1, (nth_error (s_arenas sv) i) as [z|] eqn:E2.
    + now rewrite (nth_error_upd_eq _ _ _ _ E1), (nth_error_upd_eq _ _ _ _ E2).
    + destruct y; easy. + destruct z; easy.
    + rewrite (proj2 (nth_error_None _ _)), (proj2 (nth_error_None _ _)); auto; rewrite length_upd; now apply nth_error_None.
  - rewrite !nth_error_upd_ne by auto. eapply sr_other; eauto.
Qed.

Lemma phase i D l f h1 hv c cv w x :
  live_blocks h1 = live_blocks hv -> (forall j, held h1 j = held hv j) ->
  nth_error l i = Some x -> ar i D i c cv ->
  let s1 := {| s_arenas := upd i (Some c) l; s_mem := {| m_nodes := f; m_hist := h1 |} |} in
  let sv1 := {| s_arenas := upd i (Some cv) l; s_mem := {| m_nodes := f; m_hist := hv |} |} in
  inv A sv1 -> may_use A sv1 w ->
  exists s2 sv2 evs, run_script e w s1 = Ok s2 /\ inner A sv1 sv2 evs /\ cleanups_run evs = [] /\
    sr i D h1 hv s2 sv2 /\ m_hist (s_mem s2) = evs ++ h1 /\ m_nodes (s_mem s2) = m_nodes (s_mem sv2) /\
    (forall a b, ~ In (CMove a b) evs).
Proof.
  intros HB HH Hi HC s1 sv1 HI HM.
  assert (S1 : sr i D h1 hv s1 sv1).
  { split; [split; [reflexivity|]; exists []; simpl; auto|]. intros k. unfold s1, sv1, oar. cbn [s_arenas].
    destruct (Nat.eq_dec i k) as [<-|NE].
    - rewrite !(nth_error_upd_eq _ _ _ _ Hi). exact HC.
    - rewrite !nth_error_upd_ne by auto. destruct (nth_error l k) as [[y|]|]; auto. repeat split; auto. congruence. }
  destruct (run_script_ok (ev e h1 hv) A HA (ev_good e h1 hv HB A HG) w sv1 HI HM) as (sv2 & evs & E & N & C).
  destruct (run_script_sim e i D h1 hv HB HH w s1 sv1 sv2 S1 E) as (s2 & E2 & S2).
  exists s2, sv2, evs. split; auto. split; auto. split; auto. split; auto.
  pose proof (proj1 S2) as (M1 & evs' & M2 & M3 & M4). pose proof (in_hist _ _ _ _ N) as M5. rewrite M3 in M5.
  cbn [s_mem m_hist sv1] in M5. apply app_inv_tail in M5. subst evs'. auto.
Qed.
End S.
