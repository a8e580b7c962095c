Require Import ZArith List Bool Lia.
From Verif Require Import Base BaseProofs AlignModel ArenaSpec ArenaModel ArenaStatements ArenaProofs ArenaProofs2 ArenaProofs3
  ArenaProofs4 ArenaProofs5 MetricsSpec MetricsModel MetricsStatements MetricsProofs.
Import ListNotations.
Open Scope Z_scope.

Definition nb_reported (e : event) : bool := match e with HNewBlock _ _ _ _ => true | _ => false end.
Definition balanced (h : history) : Prop := countif nb_reported h = countif block_obtained h.

Lemma countif_app {T} (f : T -> bool) a b : countif f (a ++ b) = countif f a + countif f b.
Proof. unfold countif. rewrite filter_app, app_length. lia. Qed.
Lemma balanced_app a b : balanced a -> balanced b -> balanced (a ++ b).
Proof. unfold balanced. rewrite !countif_app. lia. Qed.

(** Events of an operation served by one arena with cookie [c]. *)
Definition mok (P : Z -> Prop) (ev : event) : Prop :=
  match ev with
  | EBlockAlloc _ _ _ | ELog | CRange _ _ _ | CRegister _ _ _ | HNewBlock _ _ _ _ => True
  | HAlloc _ _ _ c => P c
  | _ => False
  end.
Definition mext (a : arena) (m m' : mem) : Prop :=
  exists evs, m_hist m' = evs ++ m_hist m /\ Forall (mok (eq (a_cookie a))) evs /\
    (o_on_newblock (a_opts a) = true -> balanced evs).

Lemma mext_refl a m : mext a m m.
Proof. exists []. split; [auto|split; [constructor|reflexivity]]. Qed.
Lemma mext_trans a m1 m2 m3 : mext a m1 m2 -> mext a m2 m3 -> mext a m1 m3.
Proof.
  intros (e1 & E1 & F1 & B1) (e2 & E2 & F2 & B2). exists (e2 ++ e1). split; [now rewrite E2, E1, app_assoc|].
  split; [now apply Forall_app|]. intros H. apply balanced_app; auto.
Qed.
Lemma mext_emit a m m' ev : mext a m m' -> mok (eq (a_cookie a)) ev -> nb_reported ev = false -> block_obtained ev = false ->
  mext a m (emit m' ev).
Proof.
  intros (e1 & E1 & F1 & B1) K N1 N2. exists (ev :: e1). split; [simpl; now rewrite E1|]. split; [now constructor|].
  intros H. specialize (B1 H). unfold balanced in *. rewrite !countif_cons, N1, N2. lia.
Qed.
Lemma mext_hist a m m' m2 : mext a m m' -> m_hist m2 = m_hist m' -> mext a m m2.
Proof. intros (e1 & E1 & F1) E. exists e1. rewrite E. auto. Qed.
Lemma mext_cfg a a' m m' : same_cfg a a' -> mext a' m m' -> mext a m m'.
Proof. intros (C1 & C2 & C3) (e1 & E1 & F1 & B1). exists e1. rewrite C1, C3 in *. auto. Qed.

Lemma ensure_block_mext e i a m need al a' m' ok : ensure_block e i a m need al = Ok (a', m', ok) ->
  same_cfg a a' /\ mext a m m'.
Proof.
  unfold ensure_block. intros H. bk H. destruct x; [|inv H; split; [repeat split|apply mext_refl]].
  bk H. destruct x as [[a1 m1] ob]. unfold newBlock in H1. cbv zeta in H1. bk H1.
  set (m0 := if M64 - 1 - kBlockHeaderSize <? need then emit m ELog else m) in *.
  assert (M0 : mext a m m0).
  { unfold m0. destruct (_ <? need); [apply mext_emit; auto using mext_refl; exact I|apply mext_refl]. }
  destruct (e_alloc e (m_hist m0) x) as [addr|] eqn:Ea.
  - inv H1. inv H. split; [repeat split|]. destruct M0 as (e1 & E1 & F1 & B1).
    exists ((if o_on_newblock (a_opts a) then [HNewBlock i (Z.of_nat (length (a_blocks a))) x (a_cookie a)] else [])
      ++ EBlockAlloc i x (Some addr) :: e1).
    split; [|split].
    + destruct (o_on_newblock (a_opts a)); simpl; now rewrite E1.
    + apply Forall_app. split; [destruct (o_on_newblock _); repeat constructor|constructor; [exact I|auto]].
    + intros Hn. rewrite Hn. specialize (B1 Hn). unfold balanced in *. simpl app. rewrite !countif_cons. cbn [nb_reported block_obtained]. lia.
  - inv H1. inv H. split; [repeat split|]. apply mext_emit; auto. exact I.
Qed.

Lemma allocateAligned_mext e i a m bytes al a' m' p : allocateAligned e i a m bytes al = Ok (a', m', p) ->
  same_cfg a a' /\ mext a m m'.
Proof.
  unfold allocateAligned. intros H. bk H. destruct x as [[a1 m1] ok]. apply ensure_block_mext in H0 as [C M].
  destruct ok.
  - destruct (a_blocks a1) as [|b rest] eqn:Eb; [discriminate|]. bk H. destruct x as [b' q]. bk H. inv H.
    split; [exact C|]. auto.
  - inv H. auto.
Qed.

Lemma addCleanup_mext e i a m o f a' m' ok : addCleanup e i a m o f = Ok (a', m', ok) -> same_cfg a a' /\ mext a m m'.
Proof.
  unfold addCleanup. intros H. bk H. destruct x as [[a1 m1] b]. apply ensure_block_mext in H0 as [C M].
  destruct b.
  - destruct (a_blocks a1) as [|b rest] eqn:Eb; [discriminate|]. bk H. destruct x as [b' m2]. inv H.
    unfold register_cleanup in H0. bk H0. destruct x as [b1 p].
    destruct (negb _); [discriminate|]. bk H0. inv H0. apply touch_hist in H1.
    split; [exact C|]. eapply mext_hist; eauto.
  - inv H. auto.
Qed.

Lemma Own_mext e i a m o f a' m' ok : Own e i a m o f = Ok (a', m', ok) -> same_cfg a a' /\ mext a m m'.
Proof.
  unfold Own. intros H. bk H. destruct x as [[a1 m1] b]. apply addCleanup_mext in H0 as [C M].
  destruct b; inv H; split; auto. apply mext_emit; auto. exact I.
Qed.

Lemma hand_out_mext a i m p n m' : hand_out i m p n = Ok m' -> mext a m m'.
Proof.
  intros H. apply hand_out_events in H. exists [CRange i p n]. split; [exact H|]. split; [repeat constructor|]. reflexivity.
Qed.
Lemma hook_alloc_mext a a' i m ty n : same_cfg a a' -> mext a m (hook_alloc i a' m ty n).
Proof.
  intros (C1 & C2 & C3). unfold hook_alloc. destruct (o_on_alloc _); [|apply mext_refl].
  apply mext_emit; try apply mext_refl; auto. simpl. auto.
Qed.

(** Whole program. *)
Definition hooks_on (s : sys) : Prop := forall i a, nth_error (s_arenas s) i = Some (Some a) -> all_hooks (a_opts a).
Definition cookie_of (s : sys) (c : Z) : Prop := exists i a, nth_error (s_arenas s) i = Some (Some a) /\ a_cookie a = c.
Definition sext (s s' : sys) : Prop :=
  frame (s_arenas s) (s_arenas s') /\
  exists evs, m_hist (s_mem s') = evs ++ m_hist (s_mem s) /\ Forall (mok (cookie_of s)) evs /\ (hooks_on s -> balanced evs).

Lemma frame_get l l' i a : frame l l' -> nth_error l i = Some (Some a) ->
  exists a', nth_error l' i = Some (Some a') /\ same_cfg a a'.
Proof. intros F H. specialize (F i). rewrite H in F. destruct (nth_error l' i) as [[a'|]|]; try contradiction. eauto. Qed.
Lemma frame_get' l l' i a : frame l l' -> nth_error l' i = Some (Some a) ->
  exists a', nth_error l i = Some (Some a') /\ same_cfg a' a.
Proof. intros F H. specialize (F i). rewrite H in F. destruct (nth_error l i) as [[a'|]|]; try contradiction. eauto. Qed.

Lemma sext_refl s : sext s s.
Proof. split; [apply frame_refl|]. exists []. split; [auto|split; [constructor|reflexivity]]. Qed.
Lemma sext_trans s1 s2 s3 : sext s1 s2 -> sext s2 s3 -> sext s1 s3.
Proof.
  intros (R1 & e1 & E1 & F1 & B1) (R2 & e2 & E2 & F2 & B2). split; [eapply frame_trans; eauto|].
  exists (e2 ++ e1). split; [now rewrite E2, E1, app_assoc|].
  split; [apply Forall_app; split; auto|].
  - eapply Forall_impl; [|exact F2]. intros ev. destruct ev; simpl; auto. intros (i & a & Hi & Ha).
    destruct (frame_get' _ _ _ _ R1 Hi) as (a' & Hi' & C1 & C2 & C3). exists i, a'. split; auto. congruence.
  - intros H. apply balanced_app; [apply B2|apply B1; auto]. intros i a Hi.
    destruct (frame_get' _ _ _ _ R1 Hi) as (a' & Hi' & C1 & C2 & C3). rewrite C1. eapply H; eauto.
Qed.
Lemma sext_put s i a a' m' : nth_error (s_arenas s) i = Some (Some a) -> same_cfg a a' -> mext a (s_mem s) m' ->
  sext s (put s i a' m').
Proof.
  intros Hi C (evs & E & F & B). split; [eapply frame_upd; eauto|]. exists evs. split; auto. split.
  - eapply Forall_impl; [|exact F]. intros ev. destruct ev; simpl; auto. intros <-. exists i, a. auto.
  - intros H. apply B. apply (H i a Hi).
Qed.

Lemma get_arena_inv s i a : get_arena s i = Ok a -> nth_error (s_arenas s) i = Some (Some a).
Proof. unfold get_arena. destruct (nth_error _ _) as [[?|]|]; intros H; inversion H; auto. Qed.

Lemma on_arena_sext s i f s' r : on_arena s i f = Ok (s', r) ->
  (forall a m a' m' r, f a m = Ok (a', m', r) -> same_cfg a a' /\ mext a m m') -> sext s s'.
Proof.
  unfold on_arena. intros H Hf. bk H. apply get_arena_inv in H0. bk H. destruct x0 as [[a' m'] q]. inv H.
  apply Hf in H1 as [C M]. eapply sext_put; eauto.
Qed.

Lemma cfg_trans a b c : same_cfg a b -> same_cfg b c -> same_cfg a c.
Proof. intros (?&?&?) (?&?&?). repeat split; congruence. Qed.
Lemma cfg_refl a : same_cfg a a. Proof. repeat split. Qed.

Lemma exec_sext e : forall o i s s' r, exec e o i s = Ok (s', r) -> sext s s'.
Proof.
  fix IH 1. intros o i s s' r H. destruct o as [bytes al|bytes fn el|sz ty dtor body|sz num ty|obj fn|bytes al]; simpl in H.
  - eapply on_arena_sext; [exact H|]. clear. intros a m a' m' r H. unfold AllocateAligned in H. bk H. destruct x as [[a2 m2] q].
    apply allocateAligned_mext in H0 as [C M]. destruct (q =? 0); [inv H; auto|]. bk H. inv H. split; auto.
    eapply mext_trans; [exact M|]. eapply mext_trans; [apply hook_alloc_mext; exact C|]. eapply hand_out_mext; eauto.
  - eapply on_arena_sext; [exact H|]. clear. intros a m a' m' r H. unfold AllocateAlignedAndAddCleanup in H. bk H. destruct x as [[a2 m2] q].
    apply allocateAligned_mext in H0 as [C M]. destruct (q =? 0); [inv H; auto|]. bk H. destruct x as [[a3 m3] ok].
    apply addCleanup_mext in H0 as [C' M']. assert (C2 : same_cfg a a3) by (eapply cfg_trans; eauto).
    assert (M2 : mext a m m3) by (eapply mext_trans; [exact M|exact (mext_cfg _ _ _ _ C M')]).
    destruct ok; [|inv H; split; auto]. bk H. inv H. split; auto.
    eapply mext_trans; [exact M2|]. eapply mext_trans; [|eapply hand_out_mext; eauto].
    apply mext_emit; auto; [apply hook_alloc_mext; auto|exact I].
  - bk H. destruct x as [s1 p]. apply on_arena_sext in H0; [|intros a0 m0 a0' m0' r0 HO; cbv beta in HO; eapply allocateAligned_mext; exact HO].
    destruct (p =? 0); [inv H; auto|]. bk H.
    assert (S2 : sext s1 {| s_arenas := s_arenas s1; s_mem := x |}).
    { split; [apply frame_refl|]. apply hand_out_events in H1. exists [CRange i p sz].
      split; [exact H1|split; [repeat constructor|reflexivity]]. }
    bk H.
    assert (BODY : forall l s2 s3, (fix go (l : list op) (s : sys) : res sys :=
                  match l with [] => Ok s | x :: r => do (s', _) <- exec e x i s; go r s' end) l s2 = Ok s3 ->
                  sext s2 s3).
    { clear - IH. induction l as [|y l IHl]; intros s2 s3 H; simpl in H.
      - inv H. apply sext_refl.
      - bk H. destruct x as [s4 r4]. apply IH in H0. apply IHl in H. eapply sext_trans; eauto. }
    apply BODY in H2. bk H. destruct x1 as [s4 ok].
    assert (S4 : sext x0 s4).
    { destruct dtor; [|inv H3; apply sext_refl]. eapply on_arena_sext; [exact H3|]. intros a0 m0 a0' m0' r0 HO; cbv beta in HO; eapply Own_mext; exact HO. }
    assert (S5 : sext s s4).
    { eapply sext_trans; [exact H0|]. eapply sext_trans; [exact S2|]. eapply sext_trans; eauto. }
    destruct (ok =? 0); [inv H; auto|]. bk H. inv H. eapply sext_trans; [exact S5|]. apply get_arena_inv in H4.
    split; [apply frame_refl|]. simpl. unfold hook_alloc. destruct (o_on_alloc _).
    + exists [HAlloc i ty sz (a_cookie x1)]. split; [reflexivity|]. split; [repeat constructor; simpl; eexists _, _; eauto|reflexivity].
    + exists []. split; [auto|split; [constructor|reflexivity]].
  - eapply on_arena_sext; [exact H|]. clear. intros a m a' m' r H. unfold CreateArray in H.
    destruct (sz =? 0); [discriminate|]. cbv zeta in H.
    match type of H with bind (allocateAligned _ _ _ ?mm _ _) _ = _ => set (m0 := mm) in H end.
    assert (M0 : mext a m m0) by (unfold m0; destruct ((M64 - 1) / sz <? num); [apply mext_emit; auto using mext_refl; exact I|apply mext_refl]).
    bk H. destruct x as [[a2 m2] q]. apply allocateAligned_mext in H0 as [C M].
    assert (M2 : mext a m m2) by (eapply mext_trans; eauto).
    destruct (q =? 0); [inv H; auto|]. bk H. inv H. split; auto.
    eapply mext_trans; [exact M2|]. eapply mext_trans; [eapply hand_out_mext; eauto|apply hook_alloc_mext; auto].
  - eapply on_arena_sext; [exact H|]. intros a0 m0 a0' m0' r0 HO; cbv beta in HO; eapply Own_mext; exact HO.
  - bk H. destruct (a_resource x) as [j|]; [|discriminate]. eapply on_arena_sext; [exact H|]. clear. intros a m a' m' r H.
    unfold resource_allocate in H. bk H. destruct x as [[a2 m2] q]. apply allocateAligned_mext in H0 as [C M].
    destruct (q =? 0); [inv H; auto|]. bk H. inv H. split; auto. eapply mext_trans; [exact M|]. eapply hand_out_mext; eauto.
Qed.

(** Reset and destroy: cleanups and frees, then the report. *)
Definition quiet (ev : event) : Prop := match ev with ECleanup _ _ | EBlockFree _ => True | _ => False end.
Definition qext (m m' : mem) : Prop := exists evs, m_hist m' = evs ++ m_hist m /\ Forall quiet evs.
Lemma qext_refl m : qext m m. Proof. exists []. split; auto. Qed.
Lemma qext_trans m1 m2 m3 : qext m1 m2 -> qext m2 m3 -> qext m1 m3.
Proof.
  intros (e1 & E1 & F1) (e2 & E2 & F2). exists (e2 ++ e1). split; [now rewrite E2, E1, app_assoc|]. now apply Forall_app.
Qed.
Lemma qext_emit m ev : quiet ev -> qext m (emit m ev).
Proof. intros H. exists [ev]. split; auto. Qed.

Lemma run_nodes_qext fuel : forall node last m m', run_nodes fuel node last m = Ok m' -> qext m m'.
Proof.
  induction fuel as [|k IH]; intros node last m m' H; simpl in H.
  - destruct (last <=? node); [inv H; apply qext_refl|discriminate].
  - destruct (last <=? node); [inv H; apply qext_refl|]. destruct (m_nodes m node); [|discriminate].
    apply IH in H. eapply qext_trans; [|exact H]. apply qext_emit. exact I.
Qed.
Lemma run_cleanups_qext b m m' : run_cleanups b m = Ok m' -> qext m m'.
Proof. apply run_nodes_qext. Qed.

Lemma free_all_qext e l : forall m acc m' w, free_all_blocks e l m acc = Ok (m', w) -> qext m m'.
Proof.
  induction l as [|b r IH]; intros m acc m' w H; simpl in H.
  - inv H. apply qext_refl.
  - bk H. bk H. apply IH in H. apply run_cleanups_qext in H1. eapply qext_trans; [exact H1|].
    eapply qext_trans; [|exact H]. apply qext_emit. exact I.
Qed.
Lemma free_except_qext e l : forall m acc b m' w, free_blocks_except_head e l m acc = Ok (b, m', w) -> qext m m'.
Proof.
  induction l as [|b r IH]; intros m acc b' m' w H; simpl in H.
  - destruct (e_debug e); discriminate.
  - destruct r as [|b2 r].
    + bk H. inv H. apply qext_refl.
    + bk H. bk H. apply IH in H. apply run_cleanups_qext in H1. eapply qext_trans; [exact H1|].
      eapply qext_trans; [|exact H]. apply qext_emit. exact I.
Qed.

(** * The metrics follow the history *)
Section Metrics.
Variables clock site : history -> Z.

Lemma metrics_word h m c : metrics_of clock site h = Ok m -> word (l_ctr (hm_local m) c).
Proof.
  revert m. induction h as [|ev h IH]; intros m H; simpl in H.
  - inv H. simpl. unfold word, M64. lia.
  - bk H. specialize (IH _ H0).
    assert (W : forall p, word (l_ctr (apply_probe (hm_local x) p) c)) by (intros p; rewrite apply_probe_ctr by auto; apply word_mod).
    destruct ev; simpl in H; try (inv H; exact IH).
    + inv H. apply (W PInit).
    + inv H. apply (W (PReset used wasted)).
    + destruct (hm_cookies x cookie) as [[t l]|]; inv H. apply (W (PAlloc size l)).
    + inv H. apply (W PNewBlock).
    + destruct (hm_cookies x cookie) as [[t l]|]; inv H. apply (W (PDestroy used wasted (Z.quot (clock h - t) 1000000))).
Qed.

(** What the counters not depending on cookies say, for every history the metrics survive. *)
Definition told (c : ctr) (ev : event) : Z :=
  match c, ev with
  | CInit, HInit _ _ | CDestruct, HDestroy _ _ _ _ | CAlloc, HAlloc _ _ _ _ | CNewblock, HNewBlock _ _ _ _
  | CResets, HReset _ _ _ _ => 1
  | CSpaceAllocated, HAlloc _ _ n _ => n
  | CSpaceResettled, HReset _ _ u _ => u
  | CSpaceUsed, HDestroy _ _ u _ => u
  | CSpaceWasted, HReset _ _ _ w | CSpaceWasted, HDestroy _ _ _ w => w
  | CBucket k, HAlloc _ _ n _ => if in_interval size_bounds k n then 1 else 0
  | _, _ => 0
  end.
Definition from_history (c : ctr) : Prop := match c with CLife _ | CLoc _ => False | _ => True end.

Lemma metrics_told h m c : from_history c -> metrics_of clock site h = Ok m ->
  l_ctr (hm_local m) c = sum_of (told c) h mod M64.
Proof.
  intros Hc. revert m. induction h as [|ev h IH]; intros m H; simpl in H.
  - inv H. reflexivity.
  - bk H. pose proof (metrics_word _ _ c H0) as W. specialize (IH _ H0).
    assert (P : forall p, told c ev = contribution c p -> l_ctr (apply_probe (hm_local x) p) c = sum_of (told c) (ev :: h) mod M64).
    { intros p E. rewrite apply_probe_ctr by auto. rewrite IH, Zplus_mod_idemp_l. simpl. fold (sum_of (told c) h). f_equal. lia. }
    assert (N : told c ev = 0 -> l_ctr (hm_local x) c = sum_of (told c) (ev :: h) mod M64).
    { intros E. rewrite IH. simpl. now rewrite E. }
    destruct ev; simpl in H; try (inv H; apply N; destruct c; reflexivity).
    + inv H. apply (P PInit). destruct c; reflexivity.
    + inv H. apply (P (PReset used wasted)). destruct c; reflexivity.
    + destruct (hm_cookies x cookie) as [[t l]|]; inv H. apply (P (PAlloc size l)). destruct c; try reflexivity. destruct Hc.
    + inv H. apply (P PNewBlock). destruct c; reflexivity.
    + destruct (hm_cookies x cookie) as [[t l]|]; inv H. apply (P (PDestroy used wasted (Z.quot (clock h - t) 1000000))).
      destruct c; try reflexivity. destruct Hc.
Qed.

Definition knows (m : hooked_metrics) (h : history) : Prop :=
  forall k, In k (live_cookies h) -> exists v, hm_cookies m k = Some v.
Definition healthy (h : history) : Prop := exists m, metrics_of clock site h = Ok m /\ knows m h.

Lemma healthy_mok h evs : healthy h -> Forall (mok (fun c => In c (live_cookies h))) evs ->
  healthy (evs ++ h) /\ live_cookies (evs ++ h) = live_cookies h.
Proof.
  intros HH. induction 1 as [|ev evs Hev HF [(m & E & K) L]]; [auto|]. simpl app.
  assert (L' : live_cookies (ev :: evs ++ h) = live_cookies h) by (destruct ev; simpl in *; try contradiction; auto).
  split; auto. unfold healthy, knows. rewrite L'. simpl. rewrite E. simpl. unfold knows in K. rewrite L in K.
  destruct ev; simpl in Hev; try contradiction; simpl; eauto.
  destruct (K _ Hev) as ([t l] & Ev). rewrite Ev. eauto.
Qed.
Lemma healthy_quiet h evs : healthy h -> Forall quiet evs -> healthy (evs ++ h) /\ live_cookies (evs ++ h) = live_cookies h.
Proof.
  intros HH. induction 1 as [|ev evs Hev HF [(m & E & K) L]]; [auto|]. simpl app.
  destruct ev; simpl in Hev; try contradiction; (split; [exists m; simpl; rewrite E; auto|auto]).
Qed.

Record MI (s : sys) : Prop := {
  MI_hooks : hooks_on s;
  MI_distinct : forall i j a b, i <> j -> nth_error (s_arenas s) i = Some (Some a) -> nth_error (s_arenas s) j = Some (Some b) ->
     a_cookie a <> a_cookie b;
  MI_live : forall i a, nth_error (s_arenas s) i = Some (Some a) -> In (a_cookie a) (live_cookies (m_hist (s_mem s)));
  MI_healthy : healthy (m_hist (s_mem s));
  MI_new : sum_of (told CInit) (m_hist (s_mem s)) = countif constructed (m_hist (s_mem s));
  MI_destroy : sum_of (told CDestruct) (m_hist (s_mem s)) = countif destroyed (m_hist (s_mem s));
  MI_reset : sum_of (told CResets) (m_hist (s_mem s)) = countif was_reset (m_hist (s_mem s));
  MI_block : sum_of (told CNewblock) (m_hist (s_mem s)) = countif block_obtained (m_hist (s_mem s)) }.

Lemma sum_of_app f a b : sum_of f (a ++ b) = sum_of f a + sum_of f b.
Proof. unfold sum_of. induction a; simpl; auto. rewrite IHa. lia. Qed.
Lemma sum_of_cons f x b : sum_of f (x :: b) = f x + sum_of f b. Proof. reflexivity. Qed.

Lemma sum_zero f l : (forall x, In x l -> f x = 0) -> sum_of f l = 0.
Proof. induction l; intros H; auto. rewrite sum_of_cons, IHl, H; auto; simpl; auto. intros; apply H; simpl; auto. Qed.
Lemma count_zero {T} (f : T -> bool) l : (forall x, In x l -> f x = false) -> countif f l = 0.
Proof. induction l; intros H; auto. rewrite countif_cons, IHl, H; auto; simpl; auto. intros; apply H; simpl; auto. Qed.

Lemma sum_nb l : sum_of (told CNewblock) l = countif nb_reported l.
Proof. induction l as [|x l IH]; auto. rewrite sum_of_cons, countif_cons, IH. destruct x; reflexivity. Qed.

Lemma quiet_counts evs : Forall quiet evs -> (forall c, from_history c -> sum_of (told c) evs = 0) /\
  countif constructed evs = 0 /\ countif destroyed evs = 0 /\ countif was_reset evs = 0 /\ countif block_obtained evs = 0.
Proof.
  intros H. rewrite Forall_forall in H.
  split; [intros c _; apply sum_zero; intros x Hx; apply H in Hx; destruct x, c; try contradiction; reflexivity|].
  repeat split; apply count_zero; intros x Hx; apply H in Hx; destruct x; try contradiction; reflexivity.
Qed.

Lemma mok_counts P evs : Forall (mok P) evs ->
  sum_of (told CInit) evs = 0 /\ sum_of (told CDestruct) evs = 0 /\ sum_of (told CResets) evs = 0 /\
  countif constructed evs = 0 /\ countif destroyed evs = 0 /\ countif was_reset evs = 0.
Proof.
  intros H. rewrite Forall_forall in H.
  repeat split; (apply sum_zero || apply count_zero); intros x Hx; apply H in Hx; destruct x; simpl in Hx; try contradiction; reflexivity.
Qed.

Lemma MI_sext s s' : MI s -> sext s s' -> MI s'.
Proof.
  intros [H1 H2 H3 H4 H5 H6 H7 H8] (F & evs & E & FE & B).
  assert (FE' : Forall (mok (fun c => In c (live_cookies (m_hist (s_mem s))))) evs).
  { eapply Forall_impl; [|exact FE]. intros ev. destruct ev; simpl; auto. intros (i & a & Hi & <-). eauto. }
  destruct (healthy_mok _ _ H4 FE') as [HH HL]. destruct (mok_counts _ _ FE) as (S1 & S2 & S3 & K1 & K2 & K3).
  specialize (B H1). unfold balanced in B.
  split; try (rewrite E, sum_of_app, countif_app; rewrite ?S1, ?S2, ?S3, ?K1, ?K2, ?K3; lia).
  - intros i a Hi. destruct (frame_get' _ _ _ _ F Hi) as (a' & Hi' & C1 & C2 & C3). rewrite C1. eauto.
  - intros i j a b NE Hi Hj. destruct (frame_get' _ _ _ _ F Hi) as (a' & Hi' & C1 & C2 & C3).
    destruct (frame_get' _ _ _ _ F Hj) as (b' & Hj' & D1 & D2 & D3). rewrite C3, D3. eauto.
  - intros i a Hi. destruct (frame_get' _ _ _ _ F Hi) as (a' & Hi' & C1 & C2 & C3). rewrite E, HL, C3. eauto.
  - now rewrite E.
  - rewrite E, sum_of_app, countif_app, sum_nb. lia.
Qed.

Lemma MI_init : MI init.
Proof.
  split; try reflexivity; simpl.
  - intros i a H. destruct i; discriminate.
  - intros i j a b _ H. destruct i; discriminate.
  - intros i a H. destruct i; discriminate.
  - exists {| hm_local := local_reset; hm_cookies := fun _ => None |}. split; [reflexivity|]. intros k [].
Qed.

Lemma qext_stages m m' : qext m m' -> healthy (m_hist m) ->
  healthy (m_hist m') /\ live_cookies (m_hist m') = live_cookies (m_hist m) /\
  (forall c, from_history c -> sum_of (told c) (m_hist m') = sum_of (told c) (m_hist m)) /\
  countif constructed (m_hist m') = countif constructed (m_hist m) /\ countif destroyed (m_hist m') = countif destroyed (m_hist m) /\
  countif was_reset (m_hist m') = countif was_reset (m_hist m) /\ countif block_obtained (m_hist m') = countif block_obtained (m_hist m).
Proof.
  intros (evs & E & F) H. destruct (healthy_quiet _ _ H F) as [HH HL]. destruct (quiet_counts _ F) as (S & K1 & K2 & K3 & K4).
  rewrite E, !countif_app, K1, K2, K3, K4. repeat split; auto. intros c Hc. rewrite sum_of_app, S; auto.
Qed.

Lemma MI_step e s o s' r : fresh_cookies (e_cookie e) -> MI s -> hooked_op o -> step e s o = Ok (s', r) -> MI s'.
Proof.
  intros Fr HM Ho H. destruct o as [opts|i o|i|i|i]; simpl in Ho.
  - simpl in H. pose proof Ho as (O1 & O2 & O3 & O4 & O5). unfold construct in H. rewrite O1 in H. inv H.
    destruct HM as [H1 H2 H3 H4 H5 H6 H7 H8].
    set (h := m_hist (s_mem s)) in *. set (c := e_cookie e h) in *.
    assert (GET : forall i a, nth_error (s_arenas s ++ [Some {| a_opts := opts; a_blocks := []; a_resource := Some (length (s_arenas s));
        a_cookie := c; a_space := 0 |}]) i = Some (Some a) ->
        nth_error (s_arenas s) i = Some (Some a) \/ (i = length (s_arenas s) /\ a_opts a = opts /\ a_cookie a = c)).
    { intros i a Hi. destruct (Nat.lt_ge_cases i (length (s_arenas s))) as [L|L].
      - rewrite nth_error_app1 in Hi by auto. auto.
      - rewrite nth_error_app2 in Hi by auto. destruct (i - length (s_arenas s))%nat as [|k] eqn:Ek; simpl in Hi.
        + inversion Hi; subst. right. repeat split; auto. lia.
        + destruct k; discriminate. }
    split; cbn [s_arenas s_mem emit m_hist]; fold h; try (rewrite !sum_of_cons, !countif_cons; cbn [told constructed destroyed was_reset block_obtained]; lia).
    + intros i a Hi. destruct (GET i a Hi) as [K|(_ & -> & _)]; eauto.
    + intros i j a b NE Hi Hj.
      destruct (GET i a Hi) as [K|(-> & _ & Ea)], (GET j b Hj) as [K'|(-> & _ & Eb)]; eauto.
      * rewrite Eb. intros Ec. apply (Fr h). fold c. rewrite <- Ec. eapply H3; eauto.
      * rewrite Ea. intros Ec. apply (Fr h). fold c. rewrite Ec. eapply H3; eauto.
    + intros i a Hi. simpl. destruct (GET i a Hi) as [K|(_ & _ & ->)]; [right; eapply H3; eauto|auto].
    + destruct H4 as (m & E & K). eexists. split; [simpl; rewrite E; simpl; reflexivity|]. intros k Hk. simpl in Hk |- *.
      destruct (Z.eqb_spec k c); [eauto|]. apply K. destruct Hk; [congruence|auto].
  - eapply MI_sext; [exact HM|]. eapply exec_sext; eauto.
  - simpl in H. unfold on_arena in H. bk H. apply get_arena_inv in H0. bk H. destruct x0 as [[a' m'] w]. inv H.
    unfold Reset in H1. bk H1. destruct x0 as [[b m1] waste]. apply free_except_qext in H.
    bk H1. destruct x0 as [b' m3]. inv H1. unfold block_reset in H2. bk H2. inv H2. apply run_cleanups_qext in H1.
    destruct HM as [M1 M2 M3 M4 M5 M6 M7 M8]. destruct (M1 _ _ H0) as (O1 & O2 & O3 & O4 & O5). rewrite O2 in H1.
    destruct (qext_stages _ _ H M4) as (HH & HL & HS & HK1 & HK2 & HK3 & HK4).
    assert (HH2 : healthy (m_hist (emit m1 (HReset i (a_cookie x) (a_space x) waste)))).
    { destruct HH as (mm & E & K). eexists. split; [simpl; rewrite E; simpl; reflexivity|]. exact K. }
    destruct (qext_stages _ _ H1 HH2) as (HH' & HL' & HS' & HK1' & HK2' & HK3' & HK4').
    assert (F : frame (s_arenas s) (upd i (Some {| a_opts := a_opts x; a_blocks := [{| b_addr := b_addr b; b_pos := kBlockHeaderSize; b_size := b_size b; b_limit := b_size b |}]; a_resource := a_resource x; a_cookie := a_cookie x; a_space := b_size b |}) (s_arenas s))).
    { eapply frame_upd; eauto. repeat split. }
    cbn [emit m_hist] in HL', HS', HK1', HK2', HK3', HK4'. rewrite countif_cons in HK1', HK2', HK3', HK4'.
    cbn [live_cookies] in HL'.
    split; cbn [s_arenas s_mem emit m_hist put];
      try (rewrite sum_of_cons, countif_cons; rewrite HS' by exact I; rewrite sum_of_cons, HS by exact I;
           rewrite ?HK1', ?HK2', ?HK3', ?HK4'; cbn [told constructed destroyed was_reset block_obtained] in *; lia).
    + intros j a Hj. destruct (frame_get' _ _ _ _ F Hj) as (a0 & Hj' & C1 & C2 & C3). rewrite C1. eauto.
    + intros j k a c NE Hj Hk. destruct (frame_get' _ _ _ _ F Hj) as (a0 & Hj' & C1 & C2 & C3).
      destruct (frame_get' _ _ _ _ F Hk) as (c0 & Hk' & D1 & D2 & D3). rewrite C3, D3. eauto.
    + intros j a Hj. destruct (frame_get' _ _ _ _ F Hj) as (a0 & Hj' & C1 & C2 & C3). simpl. rewrite HL', HL, C3. eauto.
    + destruct HH' as (mm & E & K). exists mm. split; [simpl; rewrite E; reflexivity|]. exact K.
  - contradiction.
  - simpl in H. bk H. apply get_arena_inv in H0. bk H. inv H. unfold destroy in H1. bk H1. destruct x1 as [m1 waste]. inv H1.
    apply free_all_qext in H.
    destruct HM as [M1 M2 M3 M4 M5 M6 M7 M8]. destruct (M1 _ _ H0) as (O1 & O2 & O3 & O4 & O5). rewrite O5.
    destruct (qext_stages _ _ H M4) as (HH & HL & HS & HK1 & HK2 & HK3 & HK4).
    assert (GET : forall j a, nth_error (upd i None (s_arenas s)) j = Some (Some a) -> j <> i /\ nth_error (s_arenas s) j = Some (Some a)).
    { intros j a Hj. destruct (Nat.eq_dec i j) as [<-|NE].
      - erewrite nth_error_upd_eq in Hj by eauto. discriminate.
      - rewrite nth_error_upd_ne in Hj by auto. auto. }
    split; cbn [s_arenas s_mem emit m_hist];
      try (rewrite !sum_of_cons, !countif_cons; rewrite HS by exact I; rewrite ?HK1, ?HK2, ?HK3, ?HK4;
           cbn [told constructed destroyed was_reset block_obtained] in *; lia).
    + intros j a Hj. apply GET in Hj as [_ Hj]. eauto.
    + intros j k a b NE Hj Hk. apply GET in Hj as [_ Hj]. apply GET in Hk as [_ Hk]. eauto.
    + intros j a Hj. apply GET in Hj as [NE Hj]. simpl. rewrite HL. apply filter_In. split; [eauto|].
      apply negb_true_iff, Z.eqb_neq. eauto.
    + destruct HH as (mm & E & K). assert (Hin : In (a_cookie x) (live_cookies (m_hist m1))) by (rewrite HL; eauto).
      destruct (K _ Hin) as ([t l] & Ev). eexists. split; [simpl; rewrite E; simpl; rewrite Ev; reflexivity|].
      intros k Hk. simpl in Hk |- *. apply filter_In in Hk as [Hk1 Hk2]. apply negb_true_iff in Hk2. rewrite Hk2. auto.
Qed.

Lemma MI_reach e A s : fresh_cookies (e_cookie e) -> hreach e A s -> MI s.
Proof. intros Fr. induction 1 as [|s o s' r HR IH HP HO HS]; [apply MI_init|eapply MI_step; eauto]. Qed.
End Metrics.

Lemma hreach_reach e A s : hreach e A s -> reach e A s.
Proof. induction 1; [constructor|econstructor; eauto]. Qed.
