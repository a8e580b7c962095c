Require Import ZArith List Bool Lia Permutation.
From Verif Require Import Base BaseProofs AlignModel BasicSpec BasicProofs ArenaSpec ArenaModel ArenaStatements
  ArenaProofs ArenaProofs2 ArenaProofs3 ArenaProofs4 ArenaProofs5 ArenaProofs6 ArenaProofs7
  ArenaReentModel ArenaReentSpec ArenaReentProofs ArenaReentProofs2 ArenaHookModel ArenaHookSpec
  ArenaHookProofs ArenaHookProofs2 ArenaHookProofs3 ArenaHookProofs4 ArenaHookProofs5 ArenaReentProofs4
  ArenaCallModel ArenaCallSpec ArenaCallProofs2 ArenaCallProofs3 ArenaElseSpec ArenaElseProofs ArenaElseProofs2.
Import ListNotations.
Open Scope Z_scope.

Notation st l f h := {| s_arenas := l; s_mem := {| m_nodes := f; m_hist := h |} |}.

Lemma Forall2_len {X Y} (R : X -> Y -> Prop) l1 l2 : Forall2 R l1 l2 -> length l1 = length l2.
Proof. induction 1; simpl; auto. Qed.

Section S.
Variable e : env.
Variable A : Z.
Variable w : script.
Hypothesis HA : block_alignment A.
Hypothesis HG : good_block_alloc A (e_alloc e).

Lemma same_hook i on j c u x h hv F : F = HReset \/ F = HDestroy -> same_but i h hv -> same_but i (hook_part on (F j c u x) ++ h) hv.
Proof.
  intros HF [S1 S2 S3 S4]. destruct (hook_quiet on j c u x F HF h) as (Q1 & Q2 & Q3 & Q4). constructor.
  - now rewrite Q1. - intros k. now rewrite Q4. - intros k NE. rewrite Q3; auto. - now rewrite Q2.
Qed.

Lemma freeing_start l f h i a nss : Inv A l {| m_nodes := f; m_hist := h |} -> nth_error l i = Some (Some a) ->
  ainv A {| m_nodes := f; m_hist := h |} i a nss -> freeing A i a l f h h a nss.
Proof.
  intros HI Hi [P1 P2 P3 P4 P5]. pose proof (Inv_space_bound _ _ _ _ _ HI Hi). constructor; auto.
  - unfold M64. lia.
  - apply same_refl.
  - now rewrite upd_same.
Qed.

Lemma elsewhere_off l f h i a nss : elsewhere A w (st l f h) i -> ainv A {| m_nodes := f; m_hist := h |} i a nss ->
  forall x, In x (concat nss) -> off A w i (st l f h) x.
Proof.
  intros HE HAi x Hx. apply HE. cbn [s_mem]. rewrite (ai_pend _ _ _ _ _ HAi).
  change (n_elem x, n_fn x) with (node_pair x). now apply in_map.
Qed.

(** What [others_follow] asks, from the final invariant. *)
Lemma others_end l f h i l' m' evs x : Inv A l {| m_nodes := f; m_hist := h |} -> Inv A (upd i x l') m' ->
  (forall j, j <> i -> cfg_rel (nth_error l j) (nth_error l' j)) ->
  (forall j, j <> i -> held (m_hist m') j = got j evs ++ held h j) ->
  others_follow i (st l f h) {| s_arenas := upd i x l'; s_mem := m' |} evs.
Proof.
  intros HI HI' HF HH j aj NE Hj. cbn [s_arenas s_mem] in *. pose proof (HF j NE) as FJ. rewrite Hj in FJ. unfold cfg_rel in FJ.
  destruct (nth_error l' j) as [[aj'|]|] eqn:Ej; try easy. exists aj'. rewrite nth_error_upd_ne by auto. split; auto.
  destruct (I_arena _ _ _ HI j aj Hj) as (n1 & [_ _ _ _ P5]). cbn [m_hist] in P5.
  destruct (I_arena _ _ _ HI' j aj') as (n2 & [_ _ _ Q4 Q5]); [rewrite nth_error_upd_ne by auto; exact Ej|].
  cbv zeta. fold bspan. rewrite <- P5. rewrite <- (HH j NE). split; [now rewrite Q5|]. split; auto.
  unfold SpaceAllocated. now rewrite Q4, Q5, total_size_sizes.
Qed.

Lemma destroy_else s i a : inv A s -> nth_error (s_arenas s) i = Some (Some a) -> elsewhere A w s i ->
  exists s' evs, destroy_r e w i s = Ok (s', 0) /\ m_hist (s_mem s') = evs ++ m_hist (s_mem s) /\
    cleanups_run evs = pending (m_hist (s_mem s)) i /\ got i evs = [] /\ held (m_hist (s_mem s')) i = [] /\
    others_follow i s s' evs /\ inv A s'.
Proof.
  intros HI Hi HE. destruct s as [l [f h]]. unfold inv in HI. cbn [s_arenas s_mem m_hist] in *.
  destruct (I_arena _ _ _ HI i a Hi) as (nss & HAi).
  pose proof (freeing_start l f h i a nss HI Hi HAi) as HF.
  destruct (free_all_off e A w HA HG i a (a_blocks a) nss l f h h a 0 HF eq_refl (elsewhere_off _ _ _ _ _ _ HE HAi))
    as (l' & f' & evs & k & E & hv' & cv' & C & FR & G & HH & K & [R1 R2 R3 R4 R5 R6]).
  unfold destroy_r, get_arena at 1. cbn [s_arenas]. rewrite Hi. cbn [bind]. rewrite E. cbn [bind].
  unfold get_arena. cbn [s_arenas]. rewrite R1. cbn [bind s_mem].
  set (hk := hook_part (o_on_destroy (a_opts a)) (HDestroy i (a_cookie a) (a_space a) k)).
  match goal with |- context [if o_on_destroy (a_opts a) then ?X else ?Y] =>
    assert (EM : (if o_on_destroy (a_opts a) then X else Y) = {| m_nodes := f'; m_hist := hk ++ evs ++ h |})
      by (unfold hk, hook_part; destruct (o_on_destroy (a_opts a)); reflexivity) end.
  rewrite EM. clear EM. unfold emit. cbn [m_hist m_nodes].
  assert (GK : forall j, got j (CDestroy i :: hk ++ evs) = got j evs).
  { intros j. simpl. rewrite got_app. unfold hk, hook_part. destruct (o_on_destroy _); reflexivity. }
  assert (HK : forall j x, held (CDestroy i :: hk ++ x) j = held x j).
  { intros j x. simpl. unfold hk, hook_part. destruct (o_on_destroy _); reflexivity. }
  assert (HIf : Inv A (upd i None l') {| m_nodes := f'; m_hist := CDestroy i :: hk ++ evs ++ h |}).
  { apply (same_Inv A i (hk ++ evs ++ h) hv'); auto.
    - unfold hk. apply same_hook; auto.
    - destruct (Inv_shrink A _ _ i cv' [] [] [] [] None [] (CDestroy i) R5) as (X & _); auto.
      + eapply nth_error_upd_eq; eauto.
      + rewrite upd_upd in X. exact X. }
  eexists _, (CDestroy i :: hk ++ evs). split; [reflexivity|]. cbn [s_mem m_hist].
  split; [simpl; now rewrite <- app_assoc|].
  split. { pose proof (ai_pend _ _ _ _ _ HAi) as P3. cbn [m_hist] in P3. rewrite P3, <- C. simpl. rewrite cleanups_run_app. unfold hk, hook_part. destruct (o_on_destroy _); simpl; now rewrite ?app_nil_r. }
  split; [now rewrite GK|].
  split. { destruct (I_dead _ _ _ HIf i) as [_ X]; auto. intros b Hb. rewrite (nth_error_upd_eq _ _ _ _ R1) in Hb. discriminate. }
  split; [|exact HIf].
  apply (others_end l f h i l' _ _ None HI HIf (fun j _ => FR j)). intros j NE. cbn [m_hist]. rewrite HK, GK. auto.
Qed.

Lemma reset_else s i a front o : inv A s -> nth_error (s_arenas s) i = Some (Some a) -> a_blocks a = front ++ [o] -> elsewhere A w s i ->
  exists s' a' evs, Reset_r e w i s = Ok (s', SpaceAllocated a) /\ m_hist (s_mem s') = evs ++ m_hist (s_mem s) /\
    cleanups_run evs = pending (m_hist (s_mem s)) i /\ got i evs = [] /\
    nth_error (s_arenas s') i = Some (Some a') /\ map bspan (a_blocks a') = [bspan o] /\
    SpaceAllocated a' = b_size o /\ held (m_hist (s_mem s')) i = [bspan o] /\
    others_follow i s s' evs /\ inv A s'.
Proof.
  intros HI Hi Eb HE. destruct s as [l [f h]]. unfold inv in HI. cbn [s_arenas s_mem m_hist] in *.
  destruct (I_arena _ _ _ HI i a Hi) as (nss & HAi).
  pose proof (freeing_start l f h i a nss HI Hi HAi) as HF. pose proof HAi as [P1 P2 P3 P4 P5].
  cbn [m_nodes m_hist] in P2, P3. rewrite Eb in P2. apply Forall2_app_inv in P2 as (nsf & no & -> & F1 & F2).
  pose proof (elsewhere_off _ _ _ _ _ _ HE HAi) as HO.
  destruct (free_except_off e A w HA HG i a o no front nsf l f h h a 0 HF Eb (Forall2_len _ _ _ F1))
    as (l' & f' & evs & k & E & hv' & cv' & C & FR & G & HH & K & [R1 R2 R3 R4 R5 R6]).
  { intros x Hx. apply HO. rewrite concat_app, in_app_iff; auto. }
  unfold Reset_r, get_arena at 1. cbn [s_arenas]. rewrite Hi. cbn [bind]. rewrite Eb, E. cbn [bind].
  unfold get_arena at 1. cbn [s_arenas]. rewrite R1. cbn [bind s_mem].
  set (hk := hook_part (o_on_reset (a_opts a)) (HReset i (a_cookie a) (a_space a) k)).
  match goal with |- context [if o_on_reset (a_opts a) then ?X else ?Y] =>
    assert (EM : (if o_on_reset (a_opts a) then X else Y) = {| m_nodes := f'; m_hist := hk ++ evs ++ h |})
      by (unfold hk, hook_part; destruct (o_on_reset (a_opts a)); reflexivity) end.
  rewrite EM. clear EM. unfold put at 1. cbn [s_arenas s_mem].
  set (c := {| a_opts := a_opts a; a_blocks := [o]; a_resource := a_resource a; a_cookie := a_cookie a; a_space := b_size o |}).
  set (h1 := hk ++ evs ++ h).
  assert (HF1 : freeing A i c (upd i (Some c) l') f' h1 hv' cv' [no]).
  { constructor; auto.
    - eapply nth_error_upd_eq; eauto.
    - simpl. destruct F2. unfold M64. lia.
    - unfold h1, hk. apply same_hook; auto.
    - now rewrite upd_upd. }
  destruct (run_one e A w HA HG i c (upd i (Some c) l') f' h1 hv' cv' o [] no [] HF1 K) as (sv2 & evs2 & E2 & N & C2 & Q & FR2 & G2).
  { intros x Hx. eapply off_upd; [exact R1|reflexivity|]. apply (off_frame A w i (st l f h) (st l' f' h1)); auto.
    apply HO. rewrite concat_app, in_app_iff. right. simpl. rewrite app_nil_r. auto. }
  rewrite E2. cbn [bind]. unfold get_arena. cbn [s_arenas]. rewrite (nth_error_upd_eq _ _ _ _ Q). cbn [bind a_blocks c reset_oldest].
  unfold put, emit. cbn [s_arenas s_mem m_nodes m_hist]. rewrite upd_upd.
  set (c' := set_blocks c [{| b_addr := b_addr o; b_pos := kBlockHeaderSize; b_size := b_size o; b_limit := b_size o |}]).
  assert (HIf : Inv A (upd i (Some c') (s_arenas sv2)) {| m_nodes := m_nodes (s_mem sv2); m_hist := CReset i :: evs2 ++ h1 |}).
  { apply (same_Inv A i (evs2 ++ h1) (evs2 ++ hv')); auto.
    - apply same_inner; [exact (in_evs _ _ _ _ N)|]. exact (fr_same _ _ _ _ _ _ _ _ _ HF1).
    - destruct (I_arena _ _ _ (in_inv _ _ _ _ N) i cv' Q) as (nss2 & [Q1 Q2 Q3 Q4 Q5]).
      rewrite K in Q2. inversion Q2 as [|? no2 ? nx HB2 HX]; subst. inversion HX; subst.
      destruct (Inv_shrink A (s_arenas sv2) (s_mem sv2) i cv' [] [o] [] [no2] (Some c') [] (CReset i) (in_inv _ _ _ _ N) Q) as (X & _); auto.
      { simpl. split; [exact P1|]. split; [reflexivity|]. split; [lia|]. constructor; [|constructor].
        exact (empty_binv A _ _ _ HB2). }
      cbn [freed app] in X. rewrite (in_hist _ _ _ _ N) in X. exact X. }
  assert (GK : forall j, got j (CReset i :: evs2 ++ hk ++ evs) = got j evs2 ++ got j evs).
  { intros j. simpl. rewrite !got_app. f_equal. unfold hk, hook_part. destruct (o_on_reset _); reflexivity. }
  assert (HK : forall j x, held (hk ++ x) j = held x j).
  { intros j x. unfold hk, hook_part. destruct (o_on_reset _); reflexivity. }
  assert (FRl : forall j, j <> i -> cfg_rel (nth_error l j) (nth_error (s_arenas sv2) j)).
  { intros j NE. pose proof (FR j) as FJ. pose proof (in_frame _ _ _ _ N j) as FK.
    cbn [s_arenas] in FK. rewrite upd_upd, nth_error_upd_ne in FK by auto.
    unfold cfg_rel in *. destruct (nth_error l j) as [[x|]|], (nth_error l' j) as [[y|]|], (nth_error (s_arenas sv2) j) as [[z|]|]; try easy.
    destruct FJ as (J1 & J2 & J3), FK as (K1 & K2 & K3). repeat split; congruence. }
  eexists _, c', (CReset i :: evs2 ++ hk ++ evs). split; [reflexivity|]. cbn [s_mem s_arenas m_hist].
  split; [unfold h1; simpl; now rewrite <- !app_assoc|].
  split.
  { rewrite P3, concat_app, map_app. simpl. rewrite app_nil_r, !cleanups_run_app, C, C2. unfold hk, hook_part. destruct (o_on_reset _); simpl; now rewrite ?app_nil_r. }
  split; [rewrite GK, G, G2; reflexivity|].
  split; [eapply nth_error_upd_eq; eauto|]. split; [reflexivity|]. split; [reflexivity|].
  destruct (I_arena _ _ _ HIf i c') as (nx & HAf); [eapply nth_error_upd_eq; eauto|].
  split; [exact (ai_held _ _ _ _ _ HAf)|]. split; [|exact HIf].
  apply (others_end l f h i (s_arenas sv2) _ _ (Some c') HI HIf FRl). intros j NE. cbn [m_hist]. rewrite GK.
  change (held (CReset i :: evs2 ++ h1) j) with (held (evs2 ++ h1) j).
  rewrite (inner_held _ _ _ (in_evs _ _ _ _ N)), <- app_assoc. f_equal. unfold h1. rewrite HK. auto.
Qed.

Lemma step_e_ok s o : inv A s -> permitted_e A w s o -> exists s' r, step_r e w s o = Ok (s', r) /\ inv A s'.
Proof.
  intros HI [HP HE]. destruct o as [o|i o|i|i|i]; simpl step_r.
  - exact (step_ok e A HA HG s (SNew o) HI HP).
  - exact (step_ok e A HA HG s (SOp i o) HI HP).
  - destruct HP as (a & Hi & Hs). apply (space_blocks A _ _ _ _ HI Hi) in Hs. destruct (list_snoc _ Hs) as (front & b & Eb).
    destruct (reset_else s i a front b HI Hi Eb HE) as (s' & a' & evs & E & _ & _ & _ & _ & _ & _ & _ & _ & HI'). eauto.
  - exact (step_ok e A HA HG s (SMove i) HI HP).
  - destruct HP as (a & Hi). destruct (destroy_else s i a HI Hi HE) as (s' & evs & E & _ & _ & _ & _ & _ & HI'). eauto.
Qed.

Lemma reach_e_inv s : reach_e e w A s -> inv A s.
Proof.
  induction 1 as [|s o s' r HR IH HP HS]; [exact (Inv_init A)|].
  destruct (step_e_ok s o IH HP) as (s2 & r2 & E & HI). rewrite HS in E. inv E. auto.
Qed.
End S.
