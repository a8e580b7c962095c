Require Import ZArith List Bool Lia Permutation.
From Verif Require Import Base BaseProofs AlignModel BasicSpec BasicProofs ArenaSpec ArenaModel ArenaStatements
  ArenaProofs ArenaProofs2 ArenaProofs3 ArenaProofs4 ArenaProofs5 ArenaProofs6 ArenaProofs7
  ArenaReentModel ArenaReentSpec ArenaReentProofs ArenaReentProofs2 ArenaHookModel ArenaHookSpec
  ArenaHookProofs ArenaHookProofs2 ArenaHookProofs3 ArenaHookProofs4 ArenaReentProofs4
  ArenaCallModel ArenaCallSpec ArenaCallProofs2 ArenaCallProofs3 ArenaElseSpec ArenaElseProofs.
Import ListNotations.
Open Scope Z_scope.

Section S.
Variable e : env.
Variable A : Z.
Variable w : script.
Hypothesis HA : block_alignment A.
Hypothesis HG : good_block_alloc A (e_alloc e).

(** While arena [i] is freed: its chain is what it was, but what it holds are the
    blocks of [cv] with the cleanups [nss]; in [hv] it was reset in between. *)
Record freeing (i : nat) (a : arena) (l : list (option arena)) (f : Z -> option node) (h hv : history) (cv : arena) (nss : list (list node)) : Prop := {
  fr_real : nth_error l i = Some (Some a);
  fr_cfg : a_resource cv = a_resource a;
  fr_space : 0 <= a_space a < M64;
  fr_same : same_but i h hv;
  fr_inv : Inv A (upd i (Some cv) l) {| m_nodes := f; m_hist := hv |};
  fr_nodes : Forall2 (binv A f) (a_blocks cv) nss }.

Notation st l f h := {| s_arenas := l; s_mem := {| m_nodes := f; m_hist := h |} |}.

Lemma off_upd i l f h f' h' a c x : nth_error l i = Some (Some a) -> a_resource c = a_resource a ->
  off A w i (st l f h) x -> off A w i (st (upd i (Some c) l) f' h') x.
Proof.
  intros Hi Er [H1 H2]. split.
  - exact (may_use_upd A (st l f h) i a c f' h' _ Hi Er H1).
  - intros j o Hin. destruct (H2 j o Hin) as (Q1 & Q2). split; auto. intros Hu b Hb. cbn [s_arenas] in *.
    rewrite nth_error_upd_ne in Hb by auto. eauto.
Qed.

Lemma sr_zero i h hv s sv a : sr i 0 h hv s sv -> nth_error (s_arenas sv) i = Some (Some a) -> 0 <= a_space a < M64 ->
  s_arenas s = s_arenas sv.
Proof.
  intros S Hi B. apply nth_ext_list. intros k. destruct (Nat.eq_dec k i) as [->|NE].
  - pose proof (proj2 S i) as HO. unfold oar in HO. rewrite Hi in *. destruct (nth_error (s_arenas s) i) as [[b|]|]; try easy.
    destruct HO as (E1 & E2 & E3 & E4 & _ & E6). specialize (E6 eq_refl). rewrite add64_small, Z.add_0_r in E6 by lia.
    destruct a, b; simpl in *. congruence.
  - eapply sr_other; eauto.
Qed.

(** The cleanups of the newest block still held. *)
Lemma run_one i a l f h hv cv b rest ns nss : freeing i a l f h hv cv (ns :: nss) -> a_blocks cv = b :: rest ->
  (forall x, In x ns -> off A w i (st l f h) x) ->
  exists sv2 evs, run_cleanups_r e w b (st l f h) = Ok (st (upd i (Some a) (s_arenas sv2)) (m_nodes (s_mem sv2)) (evs ++ h)) /\
    inner A (st (upd i (Some cv) l) f hv) sv2 evs /\ cleanups_run evs = map node_pair ns /\
    nth_error (s_arenas sv2) i = Some (Some cv) /\ frame l (upd i (Some a) (s_arenas sv2)) /\ got i evs = [].
Proof.
  intros [R1 R2 R3 R4 R5 R6] Eb HO. rewrite Eb in R6. inversion R6 as [|? ? ? ? HB HR]; subst.
  pose proof (sb_blocks _ _ _ R4) as EB. pose proof (sb_held _ _ _ R4) as EH.
  set (sv := st (upd i (Some cv) l) f hv).
  assert (Hi : nth_error (s_arenas sv) i = Some (Some cv)) by (simpl; eapply nth_error_upd_eq; eauto).
  destruct (run_cleanups_off A w HA (ev e h hv) i (Some a) (ev_good e h hv EB A HG) sv cv b ns R5) as (sv2 & evs & E & N & C & Q); auto.
  { intros x Hx. unfold sv. eapply off_upd; eauto. }
  { rewrite Eb. simpl; auto. }
  assert (EO : other i (Some a) sv = st l f hv) by (unfold other, sv; cbn [s_arenas s_mem]; rewrite upd_upd, upd_same by auto; reflexivity).
  rewrite EO in E.
  assert (S1 : sr i 0 h hv (st l f h) (st l f hv)).
  { split; [split; [reflexivity|]; exists []; simpl; auto|]. intros k. unfold oar. cbn [s_arenas].
    destruct (nth_error l k) as [[y|]|] eqn:Ek; auto. repeat split; auto. intros ->. rewrite R1 in Ek. inv Ek.
    rewrite add64_small by lia. lia. }
  destruct (run_nodes_r_sim e w i 0 h hv EB EH _ _ _ _ _ _ S1 E) as (s2 & E2 & S2).
  fold (run_cleanups_r e w b (st l f h)) in E2. rewrite Hi in Q.
  assert (Hi2 : nth_error (s_arenas (other i (Some a) sv2)) i = Some (Some a)) by (simpl; eapply nth_error_upd_eq; eauto).
  pose proof (sr_zero _ _ _ _ _ _ S2 Hi2 R3) as EA.
  pose proof (proj1 S2) as (M1 & evs' & M2 & M3 & M4). cbn [s_mem other] in M1, M3.
  pose proof (in_hist _ _ _ _ N) as M5. rewrite M3 in M5. cbn [s_mem m_hist sv] in M5. apply app_inv_tail in M5. subst evs'.
  assert (ES : s2 = st (upd i (Some a) (s_arenas sv2)) (m_nodes (s_mem sv2)) (evs ++ h)).
  { destruct s2 as [l2 [f2 h2]]. cbn [s_arenas s_mem m_nodes m_hist other] in *. congruence. }
  exists sv2, evs. rewrite E2, ES. split; auto. split; auto. split; auto. split; auto. split.
  - intros j. pose proof (in_frame _ _ _ _ N j) as FJ. cbn [s_arenas sv] in FJ. destruct (Nat.eq_dec i j) as [<-|NE].
    + rewrite (nth_error_upd_eq _ _ _ _ Q), R1. simpl. repeat split.
    + rewrite nth_error_upd_ne by auto. rewrite nth_error_upd_ne in FJ by auto. exact FJ.
  - destruct (inner_chain A sv sv2 evs i cv b rest R5 N Hi Eb) as (cv2 & ff & b1 & Hi3 & Ec & _ & Eg & _).
    rewrite Q in Hi3. inv Hi3. rewrite Eb in Ec. apply (f_equal (@length _)) in Ec. rewrite app_length in Ec. simpl in Ec.
    rewrite <- Eg. destruct ff; [reflexivity|simpl in Ec; lia].
Qed.

(** Then the block is given back. *)
Lemma free_one i a l f h hv cv b rest ns nss : freeing i a l f h hv cv (ns :: nss) -> a_blocks cv = b :: rest ->
  (forall x, In x ns -> off A w i (st l f h) x) ->
  exists l' f' evs hv' cv', run_cleanups_r e w b (st l f h) = Ok (st l' f' (evs ++ h)) /\
    cleanups_run evs = map node_pair ns /\ frame l l' /\ got i evs = [] /\
    (forall j, j <> i -> held (EBlockFree (b_addr b) :: evs ++ h) j = got j evs ++ held h j) /\
    a_blocks cv' = rest /\ freeing i a l' f' (EBlockFree (b_addr b) :: evs ++ h) hv' cv' nss.
Proof.
  intros HF Eb HO. destruct (run_one _ _ _ _ _ _ _ _ _ _ _ HF Eb HO) as (sv2 & evs & E & N & C & Q & FR & G).
  destruct HF as [R1 R2 R3 R4 R5 R6]. rewrite Eb in R6. inversion R6 as [|? ? ? ? HB HR]; subst.
  set (sv := st (upd i (Some cv) l) f hv) in *.
  assert (Hi : nth_error (s_arenas sv) i = Some (Some cv)) by (simpl; eapply nth_error_upd_eq; eauto).
  pose proof (rest_binv A sv sv2 evs i cv b rest nss N Hi Eb HR) as HR2.
  destruct (I_arena _ _ _ (in_inv _ _ _ _ N) i cv Q) as (nss2 & [P1 P2 P3 P4 P5]).
  rewrite Eb in P2. inversion P2 as [|? ns' ? ? HB2 _]; subst.
  set (c0 := {| a_opts := a_opts cv; a_blocks := map empty_block rest; a_resource := a_resource cv; a_cookie := a_cookie cv; a_space := total_size rest |}).
  assert (ES : map bspan (map empty_block rest) = map bspan rest) by (rewrite map_map; apply map_ext; reflexivity).
  destruct (Inv_shrink A (s_arenas sv2) (s_mem sv2) i cv [b] rest [ns'] nss (Some c0) [] (CReset i)) as (HI0 & HO0 & PO0 & HE0); auto.
  { exact (in_inv _ _ _ _ N). }
  { simpl. split; [exact P1|]. split; [exact ES|]. split; [reflexivity|].
    clear - HR2. induction HR2; simpl; constructor; auto. eapply empty_binv; eauto. }
  cbn [m_nodes m_hist app] in HI0, HO0, PO0, HE0. set (hx := CReset i :: freed [b] [ns'] ++ m_hist (s_mem sv2)) in *.
  assert (NR : forall j p n, In (j, p, n) (live_ranges hx) -> j <> i).
  { intros j p n Hr. unfold hx in Hr. simpl in Hr. apply filter_other_arena in Hr. tauto. }
  pose proof (refill_many A _ _ i c0 rest nss HI0) as HI1. cbn [m_nodes m_hist] in HI1. rewrite upd_upd in HI1.
  exists (upd i (Some a) (s_arenas sv2)), (m_nodes (s_mem sv2)), evs, (map (reg i) (concat nss) ++ hx), (set_blocks c0 rest).
  pose proof (in_hist _ _ _ _ N) as EHs. cbn [s_mem m_hist sv] in EHs.
  assert (SB : same_but i (EBlockFree (b_addr b) :: evs ++ h) (freed [b] [ns'] ++ m_hist (s_mem sv2))).
  { simpl. apply same_free. apply same_events. rewrite EHs. apply same_inner; [exact (in_evs _ _ _ _ N)|exact R4]. }
  split; auto. split; auto. split; auto. split; auto. split; [|split; [reflexivity|]].
  - intros j NE. rewrite (sb_held _ _ _ SB). transitivity (held hx j); [reflexivity|]. rewrite HO0 by auto. rewrite EHs.
    rewrite (inner_held _ _ _ (in_evs _ _ _ _ N)). f_equal. symmetry. apply (sb_held _ _ _ R4).
  - constructor; auto.
    + eapply nth_error_upd_eq; eauto.
    + unfold hx. apply same_reset. exact SB.
    + rewrite upd_upd. apply HI1; auto.
      * eapply nth_error_upd_eq; eauto.
      * unfold hx. simpl. now rewrite Nat.eqb_refl.
Qed.

Definition after_free (i : nat) (a : arena) (l : list (option arena)) (h : history) (keep : list block) (ns : list node) (nsk : list (list node))
  (l' : list (option arena)) (f' : Z -> option node) (evs : history) : Prop :=
  exists hv' cv', cleanups_run evs = map node_pair ns /\ frame l l' /\ got i evs = [] /\
    (forall j, j <> i -> held (evs ++ h) j = got j evs ++ held h j) /\
    a_blocks cv' = keep /\ freeing i a l' f' (evs ++ h) hv' cv' nsk.

Lemma after_free_nil i a l f h hv cv nss : freeing i a l f h hv cv nss -> after_free i a l h (a_blocks cv) [] nss l f [].
Proof.
  intros HF. exists hv, cv. split; auto. split; [apply frame_refl|]. split; auto.
Qed.

Lemma after_free_step i a l h b keep ns ns1 nsk l1 evs1 l' f' evs :
  cleanups_run evs1 = map node_pair ns -> frame l l1 -> got i evs1 = [] ->
  (forall j, j <> i -> held (EBlockFree (b_addr b) :: evs1 ++ h) j = got j evs1 ++ held h j) ->
  after_free i a l1 (EBlockFree (b_addr b) :: evs1 ++ h) keep ns1 nsk l' f' evs ->
  after_free i a l h keep (ns ++ ns1) nsk l' f' (evs ++ EBlockFree (b_addr b) :: evs1).
Proof.
  intros C F G H (hv' & cv' & C1 & F1 & G1 & H1 & K & FR). exists hv', cv'. rewrite <- app_assoc. simpl app.
  split; [rewrite cleanups_run_app; simpl; rewrite C, C1, map_app; reflexivity|].
  split; [eapply frame_trans; eauto|]. split; [rewrite got_app, G1; exact G|].
  split; auto. intros j NE. rewrite H1, H, got_app by auto. simpl. now rewrite app_assoc.
Qed.

Lemma freeing_remain i a l f h hv cv b rest ns nss : freeing i a l f h hv cv (ns :: nss) -> a_blocks cv = b :: rest ->
  remain e b = Ok (b_limit b - b_pos b).
Proof.
  intros [_ _ _ _ _ R6] Eb. rewrite Eb in R6. inversion R6 as [|? ? ? ? HB HR]; subst. exact (remain_ok e _ _ _ _ HB).
Qed.

Lemma free_all_off i a : forall bs nss l f h hv cv acc, freeing i a l f h hv cv nss -> a_blocks cv = bs ->
  (forall x, In x (concat nss) -> off A w i (st l f h) x) ->
  exists l' f' evs k, free_all_r e w bs (st l f h) acc = Ok (st l' f' (evs ++ h), k) /\
    after_free i a l h [] (concat nss) [] l' f' evs.
Proof.
  induction bs as [|b bs IH]; intros nss l f h hv cv acc HF Eb HO.
  - pose proof (fr_nodes _ _ _ _ _ _ _ _ HF) as F. rewrite Eb in F. inversion F; subst.
    exists l, f, [], acc. split; auto. rewrite <- Eb. apply after_free_nil with (f := f) (hv := hv); auto.
  - pose proof (fr_nodes _ _ _ _ _ _ _ _ HF) as F. rewrite Eb in F. inversion F as [|? ns ? nss' HB HR]; subst.
    cbn [free_all_r]. rewrite (freeing_remain _ _ _ _ _ _ _ _ _ _ _ HF Eb). cbn [bind].
    destruct (free_one _ _ _ _ _ _ _ _ _ _ _ HF Eb) as (l1 & f1 & evs1 & hv1 & cv1 & E1 & C1 & F1 & G1 & H1 & K1 & FR1).
    { intros x Hx. apply HO. simpl. apply in_app_iff; auto. }
    rewrite E1. cbn [bind]. unfold emits, emit. cbn [s_arenas s_mem m_nodes m_hist].
    destruct (IH nss' l1 f1 _ hv1 cv1 (add64 acc (b_limit b - b_pos b)) FR1 K1) as (l' & f' & evs & k & E & AF).
    { intros x Hx. apply (off_frame A w i (st l f h)); auto. apply HO. simpl. apply in_app_iff; auto. }
    exists l', f', (evs ++ EBlockFree (b_addr b) :: evs1), k. rewrite E. rewrite <- app_assoc. split; auto.
    simpl concat. eapply after_free_step; eauto.
Qed.

Lemma free_except_off i a o no : forall bs nss l f h hv cv acc, freeing i a l f h hv cv (nss ++ [no]) -> a_blocks cv = bs ++ [o] ->
  length bs = length nss ->
  (forall x, In x (concat nss) -> off A w i (st l f h) x) ->
  exists l' f' evs k, free_except_head_r e w (bs ++ [o]) (st l f h) acc = Ok (o, st l' f' (evs ++ h), k) /\
    after_free i a l h [o] (concat nss) [no] l' f' evs.
Proof.
  induction bs as [|b bs IH]; intros [|ns nss] l f h hv cv acc HF Eb HL HO; try discriminate.
  - simpl in *. rewrite (freeing_remain _ _ _ _ _ _ _ _ _ _ _ HF Eb). cbn [bind].
    exists l, f, []. eexists. split; [reflexivity|]. rewrite <- Eb. apply after_free_nil with (f := f) (hv := hv); auto.
  - simpl app in *.
    assert (E0 : free_except_head_r e w (b :: bs ++ [o]) (st l f h) acc =
      do k <- remain e b; do s1 <- run_cleanups_r e w b (st l f h);
         free_except_head_r e w (bs ++ [o]) (emits s1 (EBlockFree (b_addr b))) (add64 acc k)).
    { destruct bs; reflexivity. }
    rewrite E0. clear E0. rewrite (freeing_remain _ _ _ _ _ _ _ _ _ _ _ HF Eb). cbn [bind].
    destruct (free_one _ _ _ _ _ _ _ _ _ _ _ HF Eb) as (l1 & f1 & evs1 & hv1 & cv1 & E1 & C1 & F1 & G1 & H1 & K1 & FR1).
    { intros x Hx. apply HO. simpl. apply in_app_iff; auto. }
    rewrite E1. cbn [bind]. unfold emits, emit. cbn [s_arenas s_mem m_nodes m_hist].
    destruct (IH nss l1 f1 _ hv1 cv1 (add64 acc (b_limit b - b_pos b)) FR1 K1) as (l' & f' & evs & k & E & AF); [now inversion HL| |].
    { intros x Hx. apply (off_frame A w i (st l f h)); auto. apply HO. simpl. apply in_app_iff; auto. }
    exists l', f', (evs ++ EBlockFree (b_addr b) :: evs1), k. rewrite E. rewrite <- app_assoc. split; auto.
    simpl concat. eapply after_free_step; eauto.
Qed.
End S.
