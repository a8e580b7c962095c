Require Import ZArith List Bool Lia Permutation.
From Verif Require Import Base BaseProofs AlignModel BasicSpec BasicProofs ArenaSpec ArenaModel ArenaStatements
  ArenaProofs ArenaProofs2 ArenaProofs3 ArenaProofs4 ArenaProofs5 ArenaProofs6 ArenaProofs7
  ArenaReentModel ArenaReentSpec ArenaReentProofs ArenaReentProofs2 ArenaHookModel ArenaHookSpec
  ArenaHookProofs ArenaHookProofs2 ArenaHookProofs3 ArenaHookProofs4 ArenaReentProofs4
  ArenaCallModel ArenaCallSpec ArenaCallProofs2 ArenaCallProofs3 ArenaElseSpec.
Import ListNotations.
Open Scope Z_scope.

(** Emptied blocks get back their cleanups. *)
Lemma refill_many A l m i c keep nss : Inv A l m -> nth_error l i = Some (Some c) -> a_blocks c = map empty_block keep ->
  Forall2 (binv A (m_nodes m)) keep nss -> (forall j p n, In (j, p, n) (live_ranges (m_hist m)) -> j <> i) ->
  pending (m_hist m) i = [] ->
  Inv A (upd i (Some (set_blocks c keep)) l) {| m_nodes := m_nodes m; m_hist := map (reg i) (concat nss) ++ m_hist m |}.
Proof.
  intros HI Hi Ec HB NR HP. pose proof HI as [H1 H2 H3 H4 H5 H6].
  destruct (refill_facts i (concat nss) [] (m_hist m)) as (F1 & F2 & F3 & F4). simpl in F1, F2, F3, F4.
  destruct (all_blocks_split l i c Hi) as (X & Y & EX & EU & EO). rewrite Ec in EX.
  assert (ES : map bspan (map empty_block keep) = map bspan keep) by (rewrite map_map; apply map_ext; reflexivity).
  constructor; cbn [m_hist m_nodes].
  - destruct H1 as (L & E & P). exists L. rewrite F1. split; auto. rewrite P, EX, EU. simpl. rewrite !map_app, ES. reflexivity.
  - unfold live_blocks_list in *. rewrite F1. exact H2.
  - intros j a Hj. destruct (Nat.eq_dec i j) as [<-|NE].
    + rewrite (nth_error_upd_eq _ _ _ _ Hi) in Hj. inv Hj. destruct (H3 i c Hi) as (nss0 & [P1 P2 P3 P4 P5]).
      rewrite Ec in P4, P5. exists nss. constructor; cbn [a_opts a_blocks a_space set_blocks m_nodes m_hist]; auto.
      * rewrite F3, Nat.eqb_refl, HP. now rewrite app_nil_r.
      * rewrite P4, !total_size_sizes, ES. reflexivity.
      * rewrite F4, P5. exact ES.
    + rewrite nth_error_upd_ne in Hj by auto. destruct (H3 j a Hj) as (nss0 & [P1 P2 P3 P4 P5]). exists nss0. constructor; auto; cbn [m_hist].
      * rewrite F3. destruct (Nat.eqb_spec i j); [congruence|auto].
      * rewrite F4. auto.
  - intros j Hj. rewrite F3, F4. destruct (Nat.eqb_spec i j) as [<-|NE].
    + exfalso. eapply Hj. eapply nth_error_upd_eq; eauto.
    + apply H4. intros a Ha. apply (Hj a). rewrite nth_error_upd_ne; auto.
  - intros j p n Hr. rewrite F2 in Hr. pose proof (NR _ _ _ Hr) as NE. destruct (H5 j p n Hr) as (Hn & a & d & Ha & Hd & Hu). split; auto.
    exists a, d. rewrite nth_error_upd_ne by auto. auto.
  - rewrite F2. exact H6.
Qed.

Section S.
Variable A : Z.
Variable w : script.
Hypothesis HA : block_alignment A.

Definition off (i : nat) (s : sys) (x : node) : Prop :=
  may_use A s (w (n_elem x) (n_fn x)) /\ keeps_off i s (w (n_elem x) (n_fn x)).
Lemma off_frame i s s' x : frame (s_arenas s) (s_arenas s') -> off i s x -> off i s' x.
Proof. intros F [H1 H2]. split; [eapply may_use_frame; eauto|eapply keeps_off_frame; eauto]. Qed.

(** Cleanups that keep off arena [i], which may be anything. *)
Lemma run_nodes_off e i y : good_block_alloc A (e_alloc e) -> forall ns fuel base s a b,
  inv A s -> (forall x, In x ns -> off i s x) -> nodes_at (m_nodes (s_mem s)) base ns ->
  nth_error (s_arenas s) i = Some (Some a) -> In b (a_blocks a) ->
  b_addr b + b_limit b <= base -> base + 16 * Z.of_nat (length ns) = b_addr b + b_size b ->
  (length ns < fuel)%nat ->
  exists s' evs, run_nodes_r e w fuel base (base + 16 * Z.of_nat (length ns)) (other i y s) = Ok (other i y s') /\
    inner A s s' evs /\ cleanups_run evs = map node_pair ns /\ nth_error (s_arenas s') i = nth_error (s_arenas s) i.
Proof.
  intros HG. induction ns as [|x ns IH]; intros [|fuel] base s a b HI HS HN Hj Hb HL HE HF; simpl length in *; try lia.
  - simpl. replace (base + 0) with base by lia. rewrite Z.leb_refl. exists s, []. split; auto. split; auto.
    constructor; auto; [apply frame_refl|apply fz_refl].
  - cbn [run_nodes_r]. destruct (Z.leb_spec (base + 16 * Z.of_nat (S (length ns))) base); [lia|].
    pose proof (HN O x eq_refl) as E0. simpl in E0. rewrite Z.add_0_r in E0. cbn [s_mem other]. rewrite E0.
    pose proof (emits_inner A s (n_elem x) (n_fn x) HI) as N0.
    destruct (HS x (or_introl eq_refl)) as [X1 X2].
    set (s0 := emits s (ECleanup (n_elem x) (n_fn x))) in *.
    change (emits (other i y s) (ECleanup (n_elem x) (n_fn x))) with (other i y s0).
    destruct (run_script_ok e A HA HG (w (n_elem x) (n_fn x)) s0) as (s1 & e1 & E1 & N1 & C1); [apply N0|exact X1|].
    destruct (run_script_other e A HA HG i y _ s0 s1 (in_inv _ _ _ _ N0) X1 X2 E1) as (E1' & Q1).
    rewrite E1'. cbn [bind]. pose proof (inner_trans A _ _ _ _ _ N0 N1) as N01.
    pose proof (in_fz _ _ _ _ N01) as [HLe HFr].
    change (s_arenas s0) with (s_arenas s) in Q1.
    replace (base + 16 * Z.of_nat (S (length ns))) with (base + 16 + 16 * Z.of_nat (length ns)) by lia. rewrite kC16.
    destruct (IH fuel (base + 16) s1 a b) as (s2 & e2 & E2 & N2 & C2 & Q2); try lia; auto.
    { apply N01. }
    { intros z Hz. eapply off_frame; [apply N01|]. apply HS. simpl; auto. }
    { intros k z Hk. rewrite (HFr b); [|eapply in_all_blocks; eauto|lia|].
      - rewrite <- (HN (S k) z Hk). f_equal. lia.
      - assert (k < length ns)%nat by (apply nth_error_Some; congruence). lia. }
    { now rewrite Q1. }
    rewrite E2. eexists s2, _. split; [reflexivity|]. split; [eapply inner_trans; eauto|].
    split; [rewrite !cleanups_run_app, C1, C2; reflexivity|]. congruence.
Qed.

Lemma run_cleanups_off e i y : good_block_alloc A (e_alloc e) -> forall s a b ns,
  inv A s -> (forall x, In x ns -> off i s x) ->
  nth_error (s_arenas s) i = Some (Some a) -> In b (a_blocks a) -> binv A (m_nodes (s_mem s)) b ns ->
  exists s' evs, run_cleanups_r e w b (other i y s) = Ok (other i y s') /\ inner A s s' evs /\
    cleanups_run evs = map node_pair ns /\ nth_error (s_arenas s') i = nth_error (s_arenas s) i.
Proof.
  intros HG s a b ns HI HS Hj Hb [B1 B2 B3 B4 B5 B6 B7 B8 B9]. unfold run_cleanups_r.
  rewrite !add64_small by (unfold M64; lia). rewrite kC16.
  replace (b_addr b + b_size b) with (b_addr b + b_limit b + 16 * Z.of_nat (length ns)) by lia.
  eapply (run_nodes_off e i y HG); eauto; try lia. replace (b_size b - b_limit b) with (Z.of_nat (length ns) * 16) by lia.
  rewrite Z_div_mult by lia. lia.
Qed.

(** Two histories that differ in what is said about arena [i] only. *)
Record same_but (i : nat) (h hv : history) : Prop := {
  sb_blocks : live_blocks h = live_blocks hv;
  sb_held : forall j, held h j = held hv j;
  sb_pend : forall j, j <> i -> pending h j = pending hv j;
  sb_rng : filter (not_of i) (live_ranges h) = filter (not_of i) (live_ranges hv) }.

Lemma same_refl i h : same_but i h h.
Proof. constructor; auto. Qed.
Lemma same_inner i h hv evs : Forall inner_event evs -> same_but i h hv -> same_but i (evs ++ h) (evs ++ hv).
Proof.
  intros F [S1 S2 S3 S4]. constructor.
  - now apply live_blocks_swap.
  - intros j. rewrite !(inner_held _ _ _ F). now f_equal.
  - intros j NE. rewrite !(inner_pending _ _ _ F). f_equal. auto.
  - now apply inner_ranges.
Qed.
Lemma same_free i h hv q : same_but i h hv -> same_but i (EBlockFree q :: h) (EBlockFree q :: hv).
Proof.
  intros [S1 S2 S3 S4]. constructor; simpl; auto.
  - now rewrite S1. - intros j. now rewrite S2.
Qed.
Lemma same_reset i h hv ns : same_but i h hv -> same_but i h (map (reg i) ns ++ CReset i :: hv).
Proof.
  intros [S1 S2 S3 S4]. destruct (refill_facts i ns [] (CReset i :: hv)) as (F1 & F2 & F3 & F4). simpl app in F1, F2, F3, F4.
  constructor.
  - rewrite F1, S1. simpl. now destruct (live_blocks hv).
  - intros j. now rewrite F4, S2.
  - intros j NE. rewrite F3, S3 by auto. destruct (Nat.eqb_spec i j); [congruence|]. simpl. destruct (Nat.eqb_spec i j); [congruence|reflexivity].
  - rewrite F2, S4. simpl. fold (not_of i). symmetry. apply filter_id. intros x Hx. apply filter_In in Hx. tauto.
Qed.
Lemma same_events i h hv ns : same_but i h hv -> same_but i h (rev (map node_event ns) ++ hv).
Proof.
  intros [S1 S2 S3 S4]. destruct (run_events_quiet ns hv) as (V1 & V2 & V3 & V4). constructor.
  - now rewrite V1. - intros j. now rewrite V4. - intros j NE. rewrite V3; auto. - now rewrite V2.
Qed.
Lemma same_Inv i h hv l f X : same_but i h hv -> X = CReset i \/ X = CDestroy i ->
  Inv A l {| m_nodes := f; m_hist := X :: hv |} -> Inv A l {| m_nodes := f; m_hist := X :: h |}.
Proof. intros [S1 S2 S3 S4] HX HI. apply (hist_switch A l f i [] [] h hv X); auto. Qed.
End S.
