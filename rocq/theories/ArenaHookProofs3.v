Require Import ZArith List Bool Lia Permutation.
From Verif Require Import Base BaseProofs AlignModel BasicSpec BasicProofs ArenaSpec ArenaModel ArenaStatements
  ArenaProofs ArenaProofs2 ArenaProofs3 ArenaProofs4 ArenaProofs5 ArenaProofs6 ArenaProofs7
  ArenaReentModel ArenaReentSpec ArenaReentProofs ArenaReentProofs2 ArenaHookModel ArenaHookSpec ArenaHookProofs ArenaHookProofs2.
Import ListNotations.
Open Scope Z_scope.

Definition not_of (i : nat) (x : nat * Z * Z) : bool := negb (fst (fst x) =? i)%nat.

Lemma inner_ranges i evs h h' : Forall inner_event evs ->
  filter (not_of i) (live_ranges h) = filter (not_of i) (live_ranges h') ->
  filter (not_of i) (live_ranges (evs ++ h)) = filter (not_of i) (live_ranges (evs ++ h')).
Proof.
  intros F E. induction F as [|x evs Hx F IH]; simpl; auto.
  destruct Hx as [Hx|(p & q & ->)]; [|exact IH]. destruct x; simpl in Hx; try contradiction; auto.
  simpl. rewrite IH. reflexivity.
Qed.

Lemma hist_switch A l f i ns evs h1 hv X : Forall inner_event evs ->
  live_blocks h1 = live_blocks hv -> (forall j, held h1 j = held hv j) ->
  (forall j, j <> i -> pending h1 j = pending hv j) ->
  filter (not_of i) (live_ranges h1) = filter (not_of i) (live_ranges hv) ->
  X = CReset i \/ X = CDestroy i ->
  Inv A l {| m_nodes := f; m_hist := X :: rev (map node_event ns) ++ evs ++ hv |} ->
  Inv A l {| m_nodes := f; m_hist := X :: rev (map node_event ns) ++ evs ++ h1 |}.
Proof.
  intros F E1 E2 E3 E4 HX HI.
  destruct (run_events_quiet ns (evs ++ hv)) as (V1 & V2 & V3 & V4).
  destruct (run_events_quiet ns (evs ++ h1)) as (W1 & W2 & W3 & W4).
  eapply Inv_ext; [exact HI|reflexivity|..]; cbn [m_hist].
  - destruct HX as [->| ->]; simpl; rewrite V1, W1, (live_blocks_swap h1 hv E1); reflexivity.
  - destruct HX as [->| ->]; simpl; rewrite V2, W2; apply (inner_ranges i evs h1 hv F E4).
  - intros j. destruct HX as [->| ->]; simpl; destruct (Nat.eqb_spec i j) as [|NE]; auto;
      rewrite V3, W3, !(inner_pending _ _ _ F); f_equal; apply E3; congruence.
  - intros j. destruct HX as [->| ->]; simpl; rewrite V4, W4, !(inner_held _ _ _ F); f_equal; apply E2.
Qed.

Section S.
Variable e : env.
Variable k : hooks.
Variable A : Z.
Hypothesis HA : block_alignment A.
Hypothesis HG : good_block_alloc A (e_alloc e).

Lemma may_use_upd s i a c f hv w : nth_error (s_arenas s) i = Some (Some a) -> a_resource c = a_resource a ->
  may_use A s w -> may_use A {| s_arenas := upd i (Some c) (s_arenas s); s_mem := {| m_nodes := f; m_hist := hv |} |} w.
Proof.
  intros Hi Er H.
  assert (AL : forall j, alive s j -> alive {| s_arenas := upd i (Some c) (s_arenas s); s_mem := {| m_nodes := f; m_hist := hv |} |} j).
  { intros j (x & Hx). unfold alive. cbn [s_arenas]. destruct (Nat.eq_dec i j) as [<-|NE].
    - exists c. eapply nth_error_upd_eq; eauto. - exists x. now rewrite nth_error_upd_ne. }
  intros j o Hin. destruct (H j o Hin) as (H1 & H2 & H3). split; auto. split; auto.
  intros Hu. destruct (H3 Hu) as (x & n & Hx & Hn & Ha). unfold resource_alive. cbn [s_arenas].
  destruct (Nat.eq_dec i j) as [<-|NE].
  - exists c, n. rewrite Hi in Hx. inv Hx. split; [eapply nth_error_upd_eq; eauto|]. split; [congruence|auto].
  - exists x, n. rewrite nth_error_upd_ne by auto. auto.
Qed.

Lemma cond_run (on : bool) w s1 evt :
  (if on then run_script e w (emits s1 evt) else Ok s1) =
  run_script e (if on then w else []) {| s_arenas := s_arenas s1; s_mem := {| m_nodes := m_nodes (s_mem s1); m_hist := hook_part on evt ++ m_hist (s_mem s1) |} |}.
Proof. destruct on; simpl; [reflexivity|]. destruct s1 as [l [f h]]. reflexivity. Qed.

Lemma hook_quiet on i c u w' (F : nat -> Z -> Z -> Z -> event) : F = HReset \/ F = HDestroy -> forall h,
  live_blocks (hook_part on (F i c u w') ++ h) = live_blocks h /\ live_ranges (hook_part on (F i c u w') ++ h) = live_ranges h /\
  (forall j, pending (hook_part on (F i c u w') ++ h) j = pending h j) /\ (forall j, held (hook_part on (F i c u w') ++ h) j = held h j).
Proof.
  intros HF h. unfold hook_part. destruct on; simpl; auto.
  destruct HF as [->| ->]; simpl; destruct (live_blocks h); auto.
Qed.

Lemma may_nil s : may_use A s [].
Proof. intros j o []. Qed.

Lemma others_lift s i s2 sv1 sv2 D h1 hv evs pre post h0 xi fin :
  (forall j, held h1 j = held hv j) ->
  (forall j, j <> i -> nth_error (s_arenas sv1) j = nth_error (s_arenas s) j) ->
  inv A sv1 -> inner A sv1 sv2 evs -> sr i D h1 hv s2 sv2 -> m_hist (s_mem sv1) = hv ->
  (forall j h, held (post ++ h) j = held h j) -> (forall j, got j post = []) -> (forall j, got j pre = []) ->
  h1 = pre ++ h0 -> m_hist (s_mem fin) = (post ++ evs ++ pre) ++ h0 ->
  s_arenas fin = upd i xi (s_arenas s2) ->
  others_follow i s fin (post ++ evs ++ pre).
Proof.
  intros HH HN HI N S2 E1 Q1 Q2 Q3 Eh Ef Ea j aj NE Hj.
  destruct (inner_others A _ _ _ HI N j aj) as (aj1 & J1 & J2 & J3 & J4); [now rewrite HN|].
  exists aj1. rewrite Ea, nth_error_upd_ne by auto. rewrite (sr_other _ _ _ _ _ _ S2 j NE). split; auto.
  cbv zeta. rewrite !got_app, Q2, Q3, app_nil_r. simpl. fold bspan. split; auto. rewrite <- J2. split; auto.
  rewrite Ef, <- !app_assoc, Q1, <- Eh, (inner_held _ _ _ (in_evs _ _ _ _ N)), HH, <- J4.
  rewrite (in_hist _ _ _ _ N), E1. now rewrite (inner_held _ _ _ (in_evs _ _ _ _ N)).
Qed.

Lemma destroy_h_ok s i a : inv A s -> nth_error (s_arenas s) i = Some (Some a) ->
  (forall h, may_use A s (k_destroy k h i)) ->
  exists s' evs, destroy_h e k i s = Ok (s', 0) /\ m_hist (s_mem s') = evs ++ m_hist (s_mem s) /\
    cleanups_run evs = pending (m_hist (s_mem s)) i /\ held (m_hist (s_mem s')) i = got i evs /\
    (exists L, live_blocks (m_hist (s_mem s')) = Some L) /\ others_follow i s s' evs /\
    ~ alive s' i /\ (got i evs = [] -> inv A s').
Proof.
  intros HI Hi HM. destruct s as [l [f h]]. unfold inv in HI. cbn [s_arenas s_mem m_hist] in *.
  destruct (I_arena _ _ _ HI i a Hi) as (nss & HAi). pose proof HAi as [P1 P2 P3 P4 P5].
  pose proof (total_unused_space A l _ i a HI Hi) as [U1 U2]. cbn [m_nodes m_hist] in *.
  unfold destroy_h, get_arena. cbn [s_arenas]. rewrite Hi. cbn [bind s_mem].
  rewrite (free_all_blocks_ok e A f _ nss P2 h 0) by (unfold M64; lia). cbn [bind]. simpl Z.add.
  set (evt := HDestroy i (a_cookie a) (a_space a) (total_unused (a_blocks a))).
  set (w := k_destroy k (m_hist {| m_nodes := f; m_hist := freed (a_blocks a) nss ++ h |}) i).
  rewrite cond_run. unfold put. cbn [s_arenas s_mem m_nodes m_hist].
  set (h1 := hook_part (o_on_destroy (a_opts a)) evt ++ freed (a_blocks a) nss ++ h).
  set (hv := CReset i :: h1).
  set (cv := {| a_opts := a_opts a; a_blocks := []; a_resource := a_resource a; a_cookie := a_cookie a; a_space := 0 |}).
  destruct (Inv_shrink A l {| m_nodes := f; m_hist := h |} i a (a_blocks a) [] nss [] (Some cv)
     (hook_part (o_on_destroy (a_opts a)) evt) (CReset i)) as (HIv & _ & _ & HEv); auto.
  { now rewrite app_nil_r. }
  { simpl. split; [exact P1|]. auto. }
  { apply (hook_quiet _ _ _ _ _ HDestroy); auto. }
  cbn [m_nodes m_hist] in HIv, HEv. fold h1 in HIv, HEv. fold hv in HIv, HEv.
  assert (EB : live_blocks h1 = live_blocks hv) by (unfold hv; simpl; destruct (live_blocks h1); reflexivity).
  assert (EH : forall j, held h1 j = held hv j) by reflexivity.
  set (sv1 := {| s_arenas := upd i (Some cv) l; s_mem := {| m_nodes := f; m_hist := hv |} |}).
  destruct (phase e A HA HG i (a_space a) l f h1 hv (set_blocks a []) cv (if o_on_destroy (a_opts a) then w else []) (Some a) EB EH Hi)
    as (s2 & sv2 & evs & E2 & N & C & S2 & Eh & En & NM).
  { repeat split; simpl; auto; try congruence. intros _. rewrite add64_small by (unfold M64; lia). reflexivity. }
  { exact HIv. }
  { destruct (o_on_destroy (a_opts a)); [|apply may_nil].
    apply (may_use_upd {| s_arenas := l; s_mem := {| m_nodes := f; m_hist := h |} |} i a cv f hv w Hi eq_refl (HM _)). }
  rewrite E2. cbn [bind].
  set (tot := [CDestroy i] ++ evs ++ (hook_part (o_on_destroy (a_opts a)) evt ++ freed (a_blocks a) nss)).
  assert (GT : forall j, got j tot = got j evs).
  { intros j. unfold tot. rewrite !got_app, got_freed. unfold hook_part. destruct (o_on_destroy _); simpl; now rewrite app_nil_r. }
  assert (Ef : m_hist (emit (s_mem s2) (CDestroy i)) = tot ++ h).
  { simpl. rewrite Eh. unfold tot, h1. simpl. now rewrite <- !app_assoc. }
  eexists _, tot. split; [reflexivity|]. cbn [s_mem s_arenas].
  split; [exact Ef|]. split.
  { unfold tot. rewrite !cleanups_run_app, C, (cleanups_run_freed A f _ _ P2), P3. simpl. rewrite !app_nil_r.
    unfold hook_part. destruct (o_on_destroy _); simpl; now rewrite app_nil_r. }
  split. { rewrite GT. simpl. rewrite Eh, (inner_held _ _ _ (in_evs _ _ _ _ N)), EH, HEv. simpl. now rewrite app_nil_r. }
  destruct (I_live _ _ _ (in_inv _ _ _ _ N)) as (L & EL & _).
  split. { exists L. simpl. rewrite Eh, (live_blocks_swap h1 hv EB). rewrite (in_hist _ _ _ _ N) in EL. cbn [s_mem m_hist] in EL. now rewrite EL. }
  split.
  { eapply (others_lift _ i s2 sv1 sv2 (a_space a) h1 hv evs _ [CDestroy i] h None); eauto.
    - intros j NE. simpl. rewrite nth_error_upd_ne by auto. reflexivity.
    - intros j. rewrite got_app, got_freed. unfold hook_part. destruct (o_on_destroy _); reflexivity.
    - unfold h1. now rewrite <- app_assoc. }
  pose proof (in_fz _ _ _ _ N) as [HL _]. destruct (HL i cv) as (cv2 & Hi2 & _); [eapply nth_error_upd_eq; eauto|].
  split. { intros (x & Hx). cbn [s_arenas] in Hx. rewrite (sr_upd _ _ _ _ _ _ None S2), (nth_error_upd_eq _ _ _ _ Hi2) in Hx. discriminate. }
  rewrite GT. intros Eg. unfold inv. cbn [s_arenas s_mem]. rewrite (sr_upd _ _ _ _ _ _ None S2).
  destruct (inner_others A sv1 _ _ HIv N i cv) as (cv2' & K1 & K2 & _); [eapply nth_error_upd_eq; eauto|].
  rewrite Hi2 in K1. inv K1. rewrite Eg in K2. simpl in K2. apply map_eq_nil in K2.
  destruct (Inv_shrink A (s_arenas sv2) (s_mem sv2) i cv2' [] [] [] [] None [] (CDestroy i) (in_inv _ _ _ _ N) Hi2)
    as (HIf & _); auto.
  simpl in HIf. rewrite (in_hist _ _ _ _ N) in HIf. unfold emit. rewrite Eh, En.
  apply (hist_switch A _ _ i [] evs h1 hv (CDestroy i)); auto.
  - exact (in_evs _ _ _ _ N).
  - intros j NE. unfold hv. simpl. destruct (Nat.eqb_spec i j); [congruence|reflexivity].
  - unfold hv. simpl. fold (not_of i). symmetry. apply filter_id. intros x Hx. apply filter_In in Hx. tauto.
Qed.
End S.
