Require Import ZArith List Bool Lia.
From Verif Require Import Base BaseProofs ArenaSpec ArenaModel ArenaStatements MetricsSpec MetricsModel MetricsStatements MetricsProofs
  MetricsGlobalModel MetricsGlobalStatements MetricsGlobalProofs.
Import ListNotations.
Open Scope Z_scope.

(** ** The two distributions *)
Lemma size_parts p : probe_ok p -> sumk CBucket (fun c => contribution c p) (seq 0 8) <= contribution CAlloc p.
Proof.
  intros _. destruct p as [|size loc| | |]; [vm_compute; congruence| |vm_compute; congruence..]. pose proof (partition_size [size]) as H.
  assert (U : forall f : Z -> bool, countif f [size] = if f size then 1 else 0) by (intros f; rewrite countif_cons; destruct (f size); reflexivity).
  rewrite U in H. unfold sumk. cbn [contribution].
  replace (fold_right (fun k s => (if in_interval size_bounds k size then 1 else 0) + s) 0 (seq 0 8))
    with (fold_right (fun k s => countif (in_interval size_bounds k) [size] + s) 0 (seq 0 8)).
  - rewrite H. destruct (_ <=? _); lia.
  - clear H. induction (seq 0 8) as [|k l IH]; simpl; auto. now rewrite IH, U.
Qed.
Lemma life_parts p : probe_ok p -> sumk CLife (fun c => contribution c p) (seq 0 8) <= contribution CDestruct p.
Proof.
  intros _. destruct p as [| | | |used wasted lifetime]; [vm_compute; congruence..|]. pose proof (partition_life [lifetime]) as H.
  assert (U : forall f : Z -> bool, countif f [lifetime] = if f lifetime then 1 else 0) by (intros f; rewrite countif_cons; destruct (f lifetime); reflexivity).
  rewrite U in H. unfold sumk. cbn [contribution].
  replace (fold_right (fun k s => (if in_interval life_bounds k lifetime then 1 else 0) + s) 0 (seq 0 8))
    with (fold_right (fun k s => countif (in_interval life_bounds k) [lifetime] + s) 0 (seq 0 8)).
  - rewrite H. destruct (_ <=? _); lia.
  - clear H. induction (seq 0 8) as [|k l IH]; simpl; auto. now rewrite IH, U.
Qed.

Lemma size_bound n s ps : mreach n s ps -> total CAlloc ps < M64 -> sumk CBucket (g_ctr s) (seq 0 8) <= g_ctr s CAlloc.
Proof.
  apply (fam_bound CAlloc CBucket); try congruence.
  - eexists [CInit; CResets], _. split; [reflexivity|]. intros k [H|[H|[]]]; discriminate.
  - apply size_parts.
Qed.
Lemma life_bound n s ps : mreach n s ps -> total CDestruct ps < M64 -> sumk CLife (g_ctr s) (seq 0 8) <= g_ctr s CDestruct.
Proof.
  apply (fam_bound CDestruct CLife); try congruence.
  - eexists [CInit; CResets; CAlloc; CNewblock], _. split; [reflexivity|]. intros k H. simpl in H. intuition discriminate.
  - apply life_parts.
Qed.

(** ** Global counters only grow *)
Lemma g_word n s ps c : mreach n s ps -> 0 <= g_ctr s c.
Proof.
  intros HR. destruct (mstep_ok n s ps HR) as [_ HC]. destruct (HC c) as (G & Ls & _ & -> & _).
  apply Z.mod_pos_bound. pose proof M64_pos; lia.
Qed.
Lemma g_total n s ps c : mreach n s ps -> total c ps < M64 -> g_ctr s c <= total c ps.
Proof.
  intros HR HT. destruct (mstep_ok n s ps HR) as [IW IC]. destruct (conserved_eq s _ c (IC c)) as [_ CE]. specialize (CE HT).
  assert (0 <= sum_unreported c (m_threads s)); [|lia].
  clear -IW. unfold sum_unreported. induction IW as [|x l Hx IW IH]; simpl; [lia|].
  assert (0 <= unreported c x); [|lia]. unfold unreported. destruct (t_todo x); [destruct (existsb _ _)|]; try apply (W_word _ Hx); lia.
Qed.
Lemma g_mono n s ps a s' c : mreach n s ps -> total c ps < M64 -> mstep s a = Next s' -> g_ctr s c <= g_ctr s' c.
Proof.
  intros HR HT HS. destruct (mstep_ok n s ps HR) as [IW IC]. destruct (conserved_eq s _ c (IC c)) as [_ CE]. specialize (CE HT).
  destruct a as [t p|t|t|t|t]; simpl in HS;
    destruct (nth_error (m_threads s) t) as [[l [q|] b]|] eqn:Ht; try discriminate.
  - injection HS as <-. apply Z.le_refl.
  - injection HS as <-. apply Z.le_refl.
  - destruct q as [|[] q]; try discriminate. destruct b; [discriminate|].
    destruct (existsb _ (m_threads s)); [discriminate|]. injection HS as <-. apply Z.le_refl.
  - destruct q as [|c0 q]; [discriminate|].
    assert (HG : g_ctr s' = set_ctr (g_ctr s) c0 (add64 (g_ctr s c0) (l_ctr l c0))).
    { destruct c0; try (injection HS as <-; reflexivity). destruct b; [injection HS as <-; reflexivity|discriminate]. }
    rewrite HG. unfold set_ctr. destruct (ctr_eqb_spec c c0) as [->|]; [|apply Z.le_refl].
    pose proof (nth_error_twf _ _ _ IW Ht) as HW. pose proof (W_word _ HW c0) as [W1 W2]. cbn [t_local] in *.
    assert (U : l_ctr l c0 <= sum_unreported c0 (m_threads s)).
    { assert (UN : forall y, In y (m_threads s) -> 0 <= unreported c0 y).
      { intros y Hy. pose proof (proj1 (Forall_forall _ _) IW y Hy) as Wy. unfold unreported.
        destruct (t_todo y); [destruct (existsb _ _)|]; try apply (W_word _ Wy); lia. }
      pose proof (sum_member (unreported c0) (m_threads s) t _ UN Ht) as SM.
      unfold unreported at 1 in SM. cbn [t_todo existsb t_local] in SM. rewrite ctr_eqb_refl in SM. exact SM. }
    pose proof (g_word n s ps c0 HR). rewrite add64_small by (unfold M64 in *; lia). lia.
  - destruct q; [|discriminate]. injection HS as <-. apply Z.le_refl.
Qed.

(** ** A call of string() *)
Definition dist (mk : nat -> ctr) (lb : Z -> label) (d : ctr) (l : list (nat * Z)) : list jstep :=
  flat_map (fun ib => [JCount (mk (fst ib)); JPercent (lb (snd ib)) d]) l.
Definition sizes := combine (seq 0 8) alloc_size_bucket.
Definition lifes := combine (seq 0 8) destruct_lifetime_bucket.
Definition second : list jstep := distribution CLife LLife destruct_lifetime_bucket CDestruct ++ [JShowAll].

Inductive phase (g : ctr -> Z) : list jstep -> Z -> Prop :=
| ph_show L n : phase g (map JShow L ++ distribution CBucket LSize alloc_size_bucket CAlloc ++ second) n
| ph_size P l n : sizes = P ++ l -> 0 <= n <= sumk CBucket g (map fst P) -> phase g (dist CBucket LSize CAlloc l ++ second) n
| ph_size' P ib l n : sizes = P ++ ib :: l -> 0 <= n <= sumk CBucket g (map fst (P ++ [ib])) ->
    phase g (JPercent (LSize (snd ib)) CAlloc :: dist CBucket LSize CAlloc l ++ second) n
| ph_life P l n : lifes = P ++ l -> 0 <= n <= sumk CLife g (map fst P) -> phase g (dist CLife LLife CDestruct l ++ [JShowAll]) n
| ph_life' P ib l n : lifes = P ++ ib :: l -> 0 <= n <= sumk CLife g (map fst (P ++ [ib])) ->
    phase g (JPercent (LLife (snd ib)) CDestruct :: dist CLife LLife CDestruct l ++ [JShowAll]) n
| ph_end q n : Forall (fun st => (exists c, st = JShow c) \/ st = JLeave \/ st = JShowAll) q -> phase g q n.

Lemma phase_mono g g' q n : phase g q n -> (forall k, g (CBucket k) <= g' (CBucket k)) -> (forall k, g (CLife k) <= g' (CLife k)) -> phase g' q n.
Proof.
  intros H HB HL. assert (SB : forall l, sumk CBucket g l <= sumk CBucket g' l) by (intros; apply sumk_le; auto).
  assert (SL : forall l, sumk CLife g l <= sumk CLife g' l) by (intros; apply sumk_le; auto).
  destruct H; [apply ph_show|eapply ph_size; eauto|eapply ph_size'; eauto|eapply ph_life; eauto|eapply ph_life'; eauto|now apply ph_end].
  - specialize (SB (map fst P)); lia.
  - specialize (SB (map fst (P ++ [ib]))); lia.
  - specialize (SL (map fst P)); lia.
  - specialize (SL (map fst (P ++ [ib]))); lia.
Qed.

Lemma sumk_app mk f a b : sumk mk f (a ++ b) = sumk mk f a + sumk mk f b.
Proof. unfold sumk. induction a; simpl; lia. Qed.
Lemma sumk_prefix mk g P l : (forall c, 0 <= g c) -> map fst (P ++ l : list (nat * Z)) = seq 0 8 -> sumk mk g (map fst P) <= sumk mk g (seq 0 8).
Proof. intros Hg <-. rewrite map_app, sumk_app. pose proof (sumk_nonneg mk g (map fst l) (fun k _ => Hg _)). lia. Qed.

Definition shown_ok (y : label * Z) : Prop := match fst y with LCounter _ => True | _ => 0 <= snd y <= 100 end.

Lemma percent_ok n d : 0 <= n <= d -> d * 100 < M64 -> (d =? 0) = false -> 0 <= mul64 n 100 / d <= 100.
Proof.
  intros H1 H2 H3. apply Z.eqb_neq in H3. rewrite mul64_small by lia. split.
  - apply Z.div_pos; lia.
  - apply Z.div_le_upper_bound; lia.
Qed.

Lemma phase_step g ks x x' : (forall c, 0 <= g c) -> sumk CBucket g (seq 0 8) <= g CAlloc -> sumk CLife g (seq 0 8) <= g CDestruct ->
  g CAlloc * 100 < M64 -> g CDestruct * 100 < M64 ->
  phase g (j_todo x) (j_count x) -> Forall shown_ok (j_out x) -> jlocal g ks x = Some x' ->
  phase g (j_todo x') (j_count x') /\ Forall shown_ok (j_out x').
Proof.
  intros Hg HB HL H1 H2 HP HO HJ. destruct x as [q n out i]. cbn [j_todo j_count j_out j_inside] in *.
  unfold jlocal in HJ. cbn [j_todo j_count j_out j_inside] in HJ.
  assert (ZS : map fst sizes = seq 0 8) by reflexivity. assert (ZL : map fst lifes = seq 0 8) by reflexivity.
  destruct HP as [L n|P l n E Hn|P ib l n E Hn|P l n E Hn|P ib l n E Hn|q n HF].
  - destruct L as [|c L]; cbn [map app] in HJ.
    + unfold distribution in HJ at 1. cbn [app] in HJ. injection HJ as <-. cbn [j_todo j_count j_out]. split; auto.
      apply (ph_size g [] sizes); [reflexivity|]. cbn. lia.
    + injection HJ as <-. cbn [j_todo j_count j_out]. split; [apply ph_show|]. constructor; auto. exact I.
  - destruct l as [|ib l].
    + cbn [dist flat_map app] in HJ. unfold second, distribution in HJ. cbn [app] in HJ. injection HJ as <-. cbn [j_todo j_count j_out].
      split; auto. apply (ph_life g [] lifes); [reflexivity|]. cbn. lia.
    + cbn [dist flat_map app] in HJ. injection HJ as <-. cbn [j_todo j_count j_out]. split; auto.
      apply (ph_size' g P ib l); auto.
      assert (B : sumk CBucket g (map fst (P ++ [ib])) <= sumk CBucket g (seq 0 8)).
      { apply (sumk_prefix _ _ _ l); auto. rewrite <- app_assoc. cbn [app]. now rewrite <- E. }
      rewrite map_app, sumk_app in *. cbn [map sumk fold_right] in *. pose proof (Hg (CBucket (fst ib))).
      rewrite add64_small by (unfold sumk in *; cbn in *; lia). unfold sumk in *; cbn in *; lia.
  - cbn [app] in HJ. destruct (g CAlloc =? 0) eqn:EZ; [discriminate|]. injection HJ as <-. cbn [j_todo j_count j_out].
    split.
    + apply (ph_size g (P ++ [ib]) l); auto. rewrite <- app_assoc. exact E.
    + constructor; auto. unfold shown_ok; cbn [fst snd]. apply percent_ok; auto.
      assert (B : sumk CBucket g (map fst (P ++ [ib])) <= sumk CBucket g (seq 0 8)).
      { apply (sumk_prefix _ _ _ l); auto. rewrite <- app_assoc. cbn [app]. now rewrite <- E. }
      lia.
  - destruct l as [|ib l].
    + cbn [dist flat_map app] in HJ. injection HJ as <-. cbn [j_todo j_count j_out]. split; auto. apply ph_end.
      apply Forall_app. split; [apply Forall_map, Forall_forall; intros k _; left; eauto|]. constructor; auto.
    + cbn [dist flat_map app] in HJ. injection HJ as <-. cbn [j_todo j_count j_out]. split; auto.
      apply (ph_life' g P ib l); auto.
      assert (B : sumk CLife g (map fst (P ++ [ib])) <= sumk CLife g (seq 0 8)).
      { apply (sumk_prefix _ _ _ l); auto. rewrite <- app_assoc. cbn [app]. now rewrite <- E. }
      rewrite map_app, sumk_app in *. cbn [map sumk fold_right] in *. pose proof (Hg (CLife (fst ib))).
      rewrite add64_small by (unfold sumk in *; cbn in *; lia). unfold sumk in *; cbn in *; lia.
  - cbn [app] in HJ. destruct (g CDestruct =? 0) eqn:EZ; [discriminate|]. injection HJ as <-. cbn [j_todo j_count j_out].
    split.
    + apply (ph_life g (P ++ [ib]) l); auto. rewrite <- app_assoc. exact E.
    + constructor; auto. unfold shown_ok; cbn [fst snd]. apply percent_ok; auto.
      assert (B : sumk CLife g (map fst (P ++ [ib])) <= sumk CLife g (seq 0 8)).
      { apply (sumk_prefix _ _ _ l); auto. rewrite <- app_assoc. cbn [app]. now rewrite <- E. }
      lia.
  - destruct HF as [|st q Hst HF]; [discriminate|]. destruct Hst as [[c ->]|[->| ->]]; injection HJ as <-; cbn [j_todo j_count j_out].
    + split; [now apply ph_end|]. constructor; auto. exact I.
    + split; auto. now apply ph_end.
    + split; auto. apply ph_end. apply Forall_app. split; [apply Forall_map, Forall_forall; intros k _; left; eauto|]. constructor; auto.
Qed.

Lemma contribution_count c p : match c with CAlloc | CDestruct | CBucket _ | CLife _ => contribution c p <= 1 | _ => True end.
Proof. destruct c, p; simpl; auto; try lia; destruct (in_interval _ _ _); lia. Qed.
Lemma total_count c ps : match c with CAlloc | CDestruct | CBucket _ | CLife _ => total c ps <= Z.of_nat (length ps) | _ => True end.
Proof.
  destruct c; auto; induction ps as [|p ps IH]; try (unfold total; simpl; lia); rewrite total_cons; cbn [length];
    [pose proof (contribution_count CDestruct p)|pose proof (contribution_count CAlloc p)|pose proof (contribution_count (CBucket k) p)|pose proof (contribution_count (CLife k) p)];
    cbv iota beta in *; lia.
Qed.

Lemma string_reach n s ps : greach false n s ps -> Z.of_nat (length ps) * 100 < M64 ->
  Forall (fun x => phase (g_ctr (gs s)) (j_todo x) (j_count x) /\ Forall shown_ok (j_out x)) (jobs s).
Proof.
  induction 1 as [|s ps a s' HR IH Hr Hp HS]; intros HL; [constructor|].
  assert (HL' : Z.of_nat (length ps) * 100 < M64) by (rewrite app_length in HL; lia).
  specialize (IH HL'). destruct (greach_mreach n s ps HR) as [HM _]. pose proof M64_pos as MP.
  pose proof (total_count CAlloc ps) as TA. pose proof (total_count CDestruct ps) as TD. cbv iota in TA, TD.
  destruct a as [a| | |j].
  - apply gthread_inv in HS as [HS HJ]. rewrite HJ. eapply Forall_impl; [|exact IH]. intros x [HP HO]. split; auto.
    eapply phase_mono; eauto; intros k; eapply g_mono; eauto; [pose proof (total_count (CBucket k) ps) as TB|pose proof (total_count (CLife k) ps) as TB]; cbv iota in TB; lia.
  - injection HS as <-. cbn [gs jobs]. apply Forall_app. split; auto. constructor; [|constructor]. split; [|constructor].
    cbn [new_job j_todo]. unfold string_steps. apply ph_show.
  - discriminate (Hr eq_refl).
  - apply gjob_inv in HS as (x & x' & E & L & ->).
    pose proof (proj1 (Forall_forall _ _) IH x (nth_error_In _ _ E)) as [HP HO].
    pose proof (fun c => g_word n _ ps c HM) as HG.
    pose proof (size_bound n _ ps HM ltac:(lia)) as SB. pose proof (life_bound n _ ps HM ltac:(lia)) as SL.
    pose proof (g_total n _ ps CAlloc HM ltac:(lia)). pose proof (g_total n _ ps CDestruct HM ltac:(lia)).
    pose proof (phase_step _ _ x x' HG SB SL ltac:(lia) ltac:(lia) HP HO L) as HX.
    assert (EM : jmem (gs s) x = gs s).
    { unfold jmem. destruct (greach_mreach n s ps HR) as [_ HJ].
      pose proof (proj1 (Forall_forall _ _) HJ x (nth_error_In _ _ E)) as Hx. cbv beta in Hx.
      destruct (j_todo x) as [|st q]; auto. inversion Hx as [|? ? Hst _]; subst. destruct st; auto. destruct (Hst c) as [F _]. now contradiction F. }
    cbn [gs jobs]. rewrite EM. apply Forall_forall. intros y Hy. apply in_upd_job in Hy as [->|Hy]; auto. revert y Hy. now apply Forall_forall.
Qed.

Lemma shown_reach n s ps x c v : greach false n s ps -> In x (jobs s) -> In (LCounter c, v) (j_out x) -> total c ps < M64 -> 0 <= v <= total c ps.
Proof.
  intros HR. revert x v. induction HR as [|s ps a s' HR IH Hr Hp HS]; intros x v Hx Hv HT; [contradiction|].
  assert (T0 : 0 <= total c (probes a)) by (apply total_nonneg; auto). rewrite total_app in *.
  assert (HT' : total c ps < M64) by lia. destruct (greach_mreach n s ps HR) as [HM HJ].
  assert (OLD : forall y, In y (jobs s) -> In (LCounter c, v) (j_out y) -> 0 <= v <= total c (probes a) + total c ps).
  { intros y Hy Hin. pose proof (IH y v Hy Hin HT'). lia. }
  destruct a as [a| | |j].
  - apply gthread_inv in HS as [_ HJ']. rewrite HJ' in Hx. eauto.
  - injection HS as <-. cbn [jobs] in Hx. apply in_app_iff in Hx as [Hx|[<-|[]]]; eauto. contradiction.
  - injection HS as <-. cbn [jobs] in Hx. apply in_app_iff in Hx as [Hx|[<-|[]]]; eauto. contradiction.
  - apply gjob_inv in HS as (y & y' & E & L & ->). cbn [jobs] in Hx. apply nth_error_In in E.
    apply in_upd_job in Hx as [->|Hx]; eauto. unfold jlocal in L. destruct (j_todo y) as [|st q] eqn:ET; [discriminate|].
    destruct st; try (destruct (_ =? _); [discriminate|]); injection L as <-; cbn [j_out] in Hv; eauto;
      destruct Hv as [Hv|Hv]; eauto.
    + injection Hv as -> <-. pose proof (g_word n _ ps c HM). pose proof (g_total n _ ps c HM HT'). lia.
    + injection Hv as -> _. exfalso. pose proof (proj1 (Forall_forall _ _) HJ y E) as Hy. cbv beta in Hy. rewrite ET in Hy.
      inversion Hy as [|? ? Hst _]; subst. destruct (Hst c) as (_ & _ & F). now apply (F c0).
Qed.

(** ** A call without interruption *)
Fixpoint jruns (k : nat) (g : ctr -> Z) (ks : list Z) (x : job) : option job :=
  match k with O => Some x | S k' => match jlocal g ks x with Some x' => jruns k' g ks x' | None => None end end.
Lemma jruns_add a b g ks x y : jruns a g ks x = Some y -> jruns (a + b) g ks x = jruns b g ks y.
Proof.
  revert x. induction a as [|a IH]; intros x; simpl; [congruence|]. destruct (jlocal g ks x); [apply IH|discriminate].
Qed.

Definition storeless (x : job) : Prop := Forall (fun st => forall c, st <> JStore c /\ st <> JStoreAll) (j_todo x).
Lemma storeless_step g ks x x' : storeless x -> jlocal g ks x = Some x' -> storeless x'.
Proof.
  unfold storeless, jlocal. intros H L. destruct (j_todo x) as [|st q]; [discriminate|]. inversion H as [|? ? Hst Hq]; subst.
  destruct st; try (destruct (_ =? _); [discriminate|]); injection L as <-; cbn [j_todo]; auto.
  - apply Forall_app. split; [apply Forall_map, Forall_forall; intros k _ c; split; discriminate|]. constructor; auto. intros c; split; discriminate.
  - destruct (Hst CInit) as [_ F]. now contradiction F.
Qed.
Lemma storeless_mem m x : storeless x -> jmem m x = m.
Proof. unfold storeless, jmem. destruct (j_todo x) as [|st q]; auto. intros H. inversion H as [|? ? Hst _]; subst. destruct st; auto. destruct (Hst c) as [F _]. now contradiction F. Qed.

Lemma alone_runs k : forall s j x y, nth_error (jobs s) j = Some x -> storeless x -> inserting (gs s) = false ->
  jruns k (g_ctr (gs s)) (g_keys (gs s)) x = Some y -> alone k j s = GNext {| gs := gs s; jobs := upd_job (jobs s) j y |}.
Proof.
  induction k as [|k IH]; intros s j x y E HS HI HR; cbn [alone jruns] in *.
  - injection HR as <-. rewrite upd_job_id by auto. destruct s; reflexivity.
  - destruct (jlocal (g_ctr (gs s)) (g_keys (gs s)) x) as [x'|] eqn:EL; [|discriminate].
    rewrite (gjob_do s j x x' E EL HI), (storeless_mem _ x HS).
    rewrite (IH {| gs := gs s; jobs := upd_job (jobs s) j x' |} j x' y); cbn [gs jobs]; auto.
    + now rewrite upd_job_twice.
    + eapply upd_job_same; eauto.
    + eapply storeless_step; eauto.
Qed.
Lemma alone_fault k : forall s j x y, nth_error (jobs s) j = Some x -> storeless x -> inserting (gs s) = false ->
  jruns k (g_ctr (gs s)) (g_keys (gs s)) x = Some y -> (exists l c q, j_todo y = JPercent l c :: q /\ g_ctr (gs s) c = 0) ->
  forall k', (k < k')%nat -> alone k' j s = GFault.
Proof.
  intros s j x y E HS HI HR (l & c & q & Ey & Z0) k' Hk. revert s x E HS HI HR Z0 k' Hk.
  induction k as [|k IH]; intros s x E HS HI HR Z0 [|k'] Hk; try lia; cbn [alone jruns] in *.
  - injection HR as ->. cbn [gstep]. rewrite E. destruct y as [td n out i]. cbn [j_todo] in Ey. subst td. now rewrite Z0.
  - destruct (jlocal (g_ctr (gs s)) (g_keys (gs s)) x) as [x'|] eqn:EL; [|discriminate].
    rewrite (gjob_do s j x x' E EL HI), (storeless_mem _ x HS).
    apply (IH {| gs := gs s; jobs := upd_job (jobs s) j x' |} x'); cbn [gs jobs]; auto; [|eapply storeless_step; eauto|lia].
    eapply upd_job_same; eauto.
Qed.

Lemma jruns_show g ks L q n out i :
  jruns (length L) g ks {| j_todo := map JShow L ++ q; j_count := n; j_out := out; j_inside := i |} =
  Some {| j_todo := q; j_count := n; j_out := rev (map (fun c => (LCounter c, g c)) L) ++ out; j_inside := i |}.
Proof.
  revert out. induction L as [|c L IH]; intros out; [reflexivity|]. cbn [length map app jruns]. unfold jlocal; cbn [j_todo j_count j_out j_inside].
  rewrite IH. cbn [map rev]. now rewrite <- app_assoc.
Qed.
Lemma jruns_dist g ks mk lb d bs : forall i0 q n out i, g d <> 0 ->
  exists l, percentages g mk (length bs) i0 n (g d) = Ok l /\ length l = length bs /\
  exists n', jruns (2 * length bs) g ks {| j_todo := dist mk lb d (combine (seq i0 (length bs)) bs) ++ q; j_count := n; j_out := out; j_inside := i |} =
    Some {| j_todo := q; j_count := n'; j_out := rev (combine (map lb bs) l) ++ out; j_inside := i |}.
Proof.
  induction bs as [|b bs IH]; intros i0 q n out i Hd.
  - exists []. split; [reflexivity|]. split; [reflexivity|]. exists n. reflexivity.
  - assert (EZ : (g d =? 0) = false) by now apply Z.eqb_neq.
    destruct (IH (S i0) q (add64 n (g (mk i0))) ((lb b, mul64 (add64 n (g (mk i0))) 100 / g d) :: out) i Hd) as (l & EP & EL & n' & ER).
    exists (mul64 (add64 n (g (mk i0))) 100 / g d :: l). cbn [length percentages]. rewrite EZ, EP. split; [reflexivity|].
    split; [simpl; congruence|]. exists n'.
    replace (2 * S (length bs))%nat with (S (S (2 * length bs))) by lia.
    cbn [seq combine dist flat_map fst snd app jruns]. unfold jlocal; cbn [j_todo j_count j_out j_inside]. rewrite EZ.
    unfold dist in ER. rewrite ER. cbn [map combine rev]. now rewrite <- app_assoc.
Qed.

Definition summary : list ctr := [CInit; CResets; CDestruct; CAlloc; CNewblock; CSpaceAllocated; CSpaceUsed; CSpaceWasted; CSpaceResettled].

Lemma jruns_clear g ks q n out i : jruns 1 g ks {| j_todo := JClear :: q; j_count := n; j_out := out; j_inside := i |} =
  Some {| j_todo := q; j_count := 0; j_out := out; j_inside := i |}.
Proof. reflexivity. Qed.
Lemma second_eq : second = JClear :: dist CLife LLife CDestruct lifes ++ [JShowAll].
Proof. reflexivity. Qed.
Lemma jruns_all g ks n out i : jruns 1 g ks {| j_todo := [JShowAll]; j_count := n; j_out := out; j_inside := i |} =
  Some {| j_todo := map JShow (map CLoc ks) ++ [JLeave]; j_count := n; j_out := out; j_inside := true |}.
Proof. cbn. now rewrite map_map. Qed.
Lemma string_head g ks : jruns 9 g ks (new_job string_steps) =
  Some {| j_todo := JClear :: dist CBucket LSize CAlloc sizes ++ second; j_count := 0; j_out := rev (map (fun c => (LCounter c, g c)) summary) ++ []; j_inside := false |}.
Proof. exact (jruns_show g ks summary _ 0 [] false). Qed.

Lemma string_alone_ok s j sz lf : nth_error (jobs s) j = Some (new_job string_steps) -> inserting (gs s) = false ->
  global_string (g_ctr (gs s)) = Ok (sz, lf) ->
  let g := g_ctr (gs s) in let ks := g_keys (gs s) in
  exists y, alone (45 + length ks) j s = GNext {| gs := gs s; jobs := upd_job (jobs s) j y |} /\ j_todo y = [] /\
    rev (j_out y) = map (fun c => (LCounter c, g c)) summary ++ combine (map LSize alloc_size_bucket) sz
                    ++ combine (map LLife destruct_lifetime_bucket) lf ++ map (fun k => (LCounter (CLoc k), g (CLoc k))) ks.
Proof.
  intros E HI HG g ks. unfold global_string in HG.
  assert (A0 : g CAlloc <> 0).
  { intros Z0. cbn [percentages] in HG. fold g in HG. rewrite Z0 in HG. discriminate. }
  destruct (jruns_dist g ks CBucket LSize CAlloc alloc_size_bucket 0 second 0 (rev (map (fun c => (LCounter c, g c)) summary) ++ []) false A0)
    as (l1 & E1 & _ & n1 & R1).
  change (length alloc_size_bucket) with 8%nat in *. fold g in HG. rewrite E1 in HG. cbn [bind] in HG.
  assert (D0 : g CDestruct <> 0).
  { intros Z0. cbn [percentages] in HG. rewrite Z0 in HG. discriminate. }
  destruct (jruns_dist g ks CLife LLife CDestruct destruct_lifetime_bucket 0 [JShowAll] 0
     (rev (combine (map LSize alloc_size_bucket) l1) ++ rev (map (fun c => (LCounter c, g c)) summary) ++ []) false D0)
    as (l2 & E2 & _ & n2 & R2).
  change (length destruct_lifetime_bucket) with 8%nat in *. rewrite E2 in HG. cbn [bind] in HG. injection HG as <- <-.
  pose (y := {| j_todo := []; j_count := n2;
     j_out := rev (map (fun c => (LCounter c, g c)) (map CLoc ks)) ++ rev (combine (map LLife destruct_lifetime_bucket) l2) ++
              rev (combine (map LSize alloc_size_bucket) l1) ++ rev (map (fun c => (LCounter c, g c)) summary) ++ []; j_inside := false |}).
  exists y. split; [|split; [reflexivity|]].
  - apply (alone_runs _ s j (new_job string_steps)); auto.
    + unfold storeless. cbn [new_job j_todo]. unfold string_steps, distribution, alloc_size_bucket, destruct_lifetime_bucket. cbn [map app combine seq flat_map fst snd].
      repeat (constructor; [intros c; split; discriminate|]). constructor.
    + fold g ks. replace (45 + length ks)%nat with (9 + (1 + (16 + (1 + (16 + (1 + (length ks + 1)))))))%nat by lia.
      rewrite (jruns_add 9 _ g ks _ _ (string_head g ks)).
      rewrite (jruns_add 1 _ g ks _ _ (jruns_clear g ks _ _ _ _)).
      rewrite (jruns_add 16 _ g ks _ _ R1).
      rewrite second_eq, (jruns_add 1 _ g ks _ _ (jruns_clear g ks _ _ _ _)).
      rewrite (jruns_add 16 _ g ks _ _ R2).
      rewrite (jruns_add 1 _ g ks _ _ (jruns_all g ks _ _ _)).
      pose proof (jruns_show g ks (map CLoc ks) [JLeave] n2 (rev (combine (map LLife destruct_lifetime_bucket) l2) ++ rev (combine (map LSize alloc_size_bucket) l1) ++ rev (map (fun c => (LCounter c, g c)) summary) ++ []) true) as RS.
      rewrite map_length in RS. rewrite (jruns_add _ _ g ks _ _ RS). reflexivity.
  - unfold y. cbn [j_out]. rewrite app_nil_r, !rev_app_distr, !rev_involutive, <- !app_assoc, map_map. reflexivity.
Qed.

Lemma string_alone_fault s j : nth_error (jobs s) j = Some (new_job string_steps) -> inserting (gs s) = false ->
  global_string (g_ctr (gs s)) = Undef -> alone (45 + length (g_keys (gs s))) j s = GFault.
Proof.
  intros E HI HG. set (g := g_ctr (gs s)) in *. set (ks := g_keys (gs s)).
  assert (ST : storeless (new_job string_steps)).
  { unfold storeless. cbn [new_job j_todo]. unfold string_steps, distribution, alloc_size_bucket, destruct_lifetime_bucket. cbn [map app combine seq flat_map fst snd].
    repeat (constructor; [intros c; split; discriminate|]). constructor. }
  destruct (Z.eq_dec (g CAlloc) 0) as [A0|A0].
  - assert (R : exists y q, jruns (9 + (1 + 1)) g ks (new_job string_steps) = Some y /\ j_todo y = JPercent (LSize 64) CAlloc :: q).
    { rewrite (jruns_add 9 _ g ks _ _ (string_head g ks)).
      rewrite (jruns_add 1 _ g ks _ _ (jruns_clear g ks _ _ _ _)). do 2 eexists. split; reflexivity. }
    destruct R as (y & q & R & EQ). eapply (alone_fault _ s j _ _ E ST HI R); [|lia]. do 3 eexists. split; [exact EQ|exact A0].
  - unfold global_string in HG.
    destruct (jruns_dist g ks CBucket LSize CAlloc alloc_size_bucket 0 second 0 (rev (map (fun c => (LCounter c, g c)) summary) ++ []) false A0)
      as (l1 & E1 & _ & n1 & R1).
    change (length alloc_size_bucket) with 8%nat in *. rewrite E1 in HG. cbn [bind] in HG.
    destruct (Z.eq_dec (g CDestruct) 0) as [D0|D0].
    + assert (R : exists y q, jruns (9 + (1 + (16 + 2))) g ks (new_job string_steps) = Some y /\ j_todo y = JPercent (LLife 1) CDestruct :: q).
      { rewrite (jruns_add 9 _ g ks _ _ (string_head g ks)).
        rewrite (jruns_add 1 _ g ks _ _ (jruns_clear g ks _ _ _ _)).
        rewrite (jruns_add 16 _ g ks _ _ R1). do 2 eexists. split; reflexivity. }
      destruct R as (y & q & R & EQ). eapply (alone_fault _ s j _ _ E ST HI R); [|lia]. do 3 eexists. split; [exact EQ|exact D0].
    + destruct (percentages_ok g CLife 8 0 0 _ D0) as (l2 & E2 & _). rewrite E2 in HG. discriminate.
Qed.

(** ** reset() without interruption *)
Definition zeroed (m : mstate) (L : list ctr) : mstate := fold_left store_zero L m.
Lemma zeroed_ctr L : forall m c, g_ctr (zeroed m L) c = if existsb (ctr_eqb c) L then 0 else g_ctr m c.
Proof.
  induction L as [|d L IH]; intros m c; [reflexivity|]. cbn [zeroed fold_left]. fold (zeroed (store_zero m d) L). rewrite IH.
  cbn [existsb store_zero g_ctr]. unfold set_ctr. destruct (ctr_eqb c d); cbn [orb]; auto. now destruct (existsb _ _).
Qed.
Lemma zeroed_keys L : forall m, g_keys (zeroed m L) = g_keys m /\ m_threads (zeroed m L) = m_threads m.
Proof. induction L as [|d L IH]; intros m; [auto|]. cbn [zeroed fold_left]. fold (zeroed (store_zero m d) L). exact (IH (store_zero m d)). Qed.
Lemma zeroed_inserting L m : inserting (zeroed m L) = inserting m.
Proof. destruct (zeroed_keys L m) as [E1 E2]. unfold inserting. now rewrite E1, E2. Qed.

Lemma alone_add a b j s s' : alone a j s = GNext s' -> alone (a + b) j s = alone b j s'.
Proof. revert s. induction a as [|a IH]; intros s; cbn [alone Nat.add]; [congruence|]. destruct (gstep s (GJob j)); try discriminate. apply IH. Qed.

Lemma alone_stores L : forall s j q n out i, nth_error (jobs s) j = Some {| j_todo := map JStore L ++ q; j_count := n; j_out := out; j_inside := i |} ->
  alone (length L) j s = GNext {| gs := zeroed (gs s) L; jobs := upd_job (jobs s) j {| j_todo := q; j_count := n; j_out := out; j_inside := i |} |}.
Proof.
  induction L as [|c L IH]; intros s j q n out i E; cbn [length map app alone] in *.
  - rewrite upd_job_id by auto. destruct s; reflexivity.
  - cbn [gstep]. rewrite E. cbv beta iota zeta.
    erewrite (IH {| gs := store_zero (gs s) c; jobs := _ |} j q n out i); cbn [gs jobs]; [|eapply upd_job_same; eauto].
    now rewrite upd_job_twice.
Qed.

Lemma reset_alone s j : nth_error (jobs s) j = Some (new_job reset_steps) -> inserting (gs s) = false ->
  exists s', alone (27 + length (g_keys (gs s))) j s = GNext s' /\
    nth_error (jobs s') j = Some (new_job []) /\ g_keys (gs s') = g_keys (gs s) /\ m_threads (gs s') = m_threads (gs s) /\
    forall c, g_ctr (gs s') c = if existsb (ctr_eqb c) (fixed_counters ++ map CLoc (g_keys (gs s))) then 0 else g_ctr (gs s) c.
Proof.
  intros E HI.
  set (F := [CInit; CDestruct; CAlloc; CNewblock; CResets; CSpaceAllocated; CSpaceResettled; CSpaceUsed; CSpaceWasted]
              ++ map CBucket (seq 0 8) ++ map CLife (seq 0 8)).
  set (ks := g_keys (gs s)).
  pose proof (alone_stores F s j [JStoreAll] 0 [] false E) as R1. change (length F) with 25%nat in R1.
  set (s1 := {| gs := zeroed (gs s) F; jobs := upd_job (jobs s) j {| j_todo := [JStoreAll]; j_count := 0; j_out := []; j_inside := false |} |}) in *.
  assert (E1 : nth_error (jobs s1) j = Some {| j_todo := [JStoreAll]; j_count := 0; j_out := []; j_inside := false |})
    by (eapply upd_job_same; eauto).
  assert (K1 : g_keys (gs s1) = ks) by apply zeroed_keys.
  assert (R2 : alone 1 j s1 = GNext {| gs := gs s1; jobs := upd_job (jobs s1) j {| j_todo := map (fun k => JStore (CLoc k)) ks ++ [JLeave]; j_count := 0; j_out := []; j_inside := true |} |}).
  { cbn [alone gstep]. rewrite E1. cbv beta iota zeta. change (gs s1) with (zeroed (gs s) F). rewrite zeroed_inserting, HI. fold (gs s1) in *. now rewrite (proj1 (zeroed_keys F (gs s))). }
  set (s2 := {| gs := gs s1; jobs := _ |}) in R2.
  assert (E2 : nth_error (jobs s2) j = Some {| j_todo := map JStore (map CLoc ks) ++ [JLeave]; j_count := 0; j_out := []; j_inside := true |})
    by (rewrite map_map; eapply upd_job_same; eauto).
  pose proof (alone_stores (map CLoc ks) s2 j [JLeave] 0 [] true E2) as R3. rewrite map_length in R3.
  set (s3 := {| gs := zeroed (gs s2) _; jobs := _ |}) in R3.
  assert (E3 : nth_error (jobs s3) j = Some {| j_todo := [JLeave]; j_count := 0; j_out := []; j_inside := true |})
    by (eapply upd_job_same; eauto).
  exists {| gs := gs s3; jobs := upd_job (jobs s3) j (new_job []) |}.
  split; [|split; [|split; [|split]]].
  - replace (27 + length ks)%nat with (25 + (1 + (length ks + 1)))%nat by lia.
    rewrite (alone_add _ _ _ _ _ R1), (alone_add _ _ _ _ _ R2), (alone_add _ _ _ _ _ R3).
    cbn [alone gstep]. rewrite E3. reflexivity.
  - cbn [jobs]. eapply upd_job_same; eauto.
  - cbn [gs]. unfold s3; cbn [gs]. rewrite (proj1 (zeroed_keys _ _)). exact K1.
  - cbn [gs]. unfold s3; cbn [gs]. rewrite (proj2 (zeroed_keys _ _)). apply (proj2 (zeroed_keys F (gs s))).
  - intros c. cbn [gs]. unfold s3; cbn [gs]. rewrite zeroed_ctr. unfold s2, s1; cbn [gs]. rewrite zeroed_ctr, existsb_app.
    assert (EF : existsb (ctr_eqb c) F = existsb (ctr_eqb c) fixed_counters).
    { apply eq_true_iff_eq. rewrite !existsb_ctr. unfold F, fixed_counters. rewrite !in_app_iff. simpl. tauto. }
    rewrite EF. now destruct (existsb (ctr_eqb c) fixed_counters), (existsb (ctr_eqb c) (map CLoc ks)).
Qed.
