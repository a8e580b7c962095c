Require Import ZArith List Bool Lia.
From Verif Require Import Base BaseProofs ArenaSpec ArenaModel ArenaStatements MetricsSpec MetricsModel MetricsStatements MetricsProofs
  MetricsGlobalModel MetricsGlobalStatements.
Import ListNotations.
Open Scope Z_scope.

Lemma conserved_eq s T c : conserved s T c ->
  (g_ctr s c + sum_unreported c (m_threads s)) mod M64 = T mod M64 /\
  (T < M64 -> g_ctr s c + sum_unreported c (m_threads s) = T).
Proof.
  intros (G & Ls & H0 & HG & HF & HS). destruct (share_sum c _ _ HF) as (I1 & I2 & I3). pose proof M64_pos. split.
  - rewrite HG, Zplus_mod_idemp_l, <- Zplus_mod_idemp_r, I2, Zplus_mod_idemp_r, HS. reflexivity.
  - intros Hlt. rewrite I3 by lia. rewrite HG, Z.mod_small by lia. lia.
Qed.

(** ** Steps of the calls *)
Lemma upd_job_length l j x : length (upd_job l j x) = length l.
Proof. revert j. induction l; intros [|j]; simpl; auto. Qed.
Lemma upd_job_same l j x y : nth_error l j = Some y -> nth_error (upd_job l j x) j = Some x.
Proof. revert j. induction l; intros [|j]; simpl; auto; discriminate. Qed.
Lemma upd_job_twice l j x y : upd_job (upd_job l j x) j y = upd_job l j y.
Proof. revert j. induction l; intros [|j]; simpl; auto. now rewrite IHl. Qed.
Lemma upd_job_id l j x : nth_error l j = Some x -> upd_job l j x = l.
Proof. revert j. induction l; intros [|j]; simpl; intros H; try congruence. now rewrite IHl. Qed.
Lemma in_upd_job l j x y : In y (upd_job l j x) -> y = x \/ In y l.
Proof.
  revert j. induction l as [|z l IH]; intros [|j]; simpl; auto.
  - intros [->|H]; auto.
  - intros [->|H]; auto. apply IH in H as [->|H]; auto.
Qed.

(** What one step does to a call, given the counters and keys. *)
Definition jlocal (g : ctr -> Z) (ks : list Z) (x : job) : option job :=
  match j_todo x with
  | [] => None
  | st :: q =>
      let r n out i := Some {| j_todo := q; j_count := n; j_out := out; j_inside := i |} in
      match st with
      | JShow c => r (j_count x) ((LCounter c, g c) :: j_out x) (j_inside x)
      | JClear => r 0 (j_out x) (j_inside x)
      | JCount c => r (add64 (j_count x) (g c)) (j_out x) (j_inside x)
      | JPercent l c => if g c =? 0 then None else r (j_count x) ((l, mul64 (j_count x) 100 / g c) :: j_out x) (j_inside x)
      | JStore c => r (j_count x) (j_out x) (j_inside x)
      | JShowAll => Some {| j_todo := map (fun k => JShow (CLoc k)) ks ++ JLeave :: q; j_count := j_count x; j_out := j_out x; j_inside := true |}
      | JStoreAll => Some {| j_todo := map (fun k => JStore (CLoc k)) ks ++ JLeave :: q; j_count := j_count x; j_out := j_out x; j_inside := true |}
      | JLeave => r (j_count x) (j_out x) false
      end
  end.
Definition jmem (m : mstate) (x : job) : mstate := match j_todo x with JStore c :: _ => store_zero m c | _ => m end.

Lemma gjob_inv s j s' : gstep s (GJob j) = GNext s' ->
  exists x x', nth_error (jobs s) j = Some x /\ jlocal (g_ctr (gs s)) (g_keys (gs s)) x = Some x' /\
    s' = {| gs := jmem (gs s) x; jobs := upd_job (jobs s) j x' |}.
Proof.
  cbn [gstep]. destruct (nth_error (jobs s) j) as [[[|st q] n out i]|] eqn:E; try discriminate.
  intros H. exists {| j_todo := st :: q; j_count := n; j_out := out; j_inside := i |}.
  destruct st; unfold jlocal, jmem; cbn [j_todo j_count j_out j_inside];
    try (destruct (inserting (gs s)); [discriminate|]); try (destruct (g_ctr (gs s) c =? 0); [discriminate|]);
    injection H as <-; eexists; repeat split; reflexivity.
Qed.
Lemma gjob_do s j x x' : nth_error (jobs s) j = Some x -> jlocal (g_ctr (gs s)) (g_keys (gs s)) x = Some x' ->
  inserting (gs s) = false -> gstep s (GJob j) = GNext {| gs := jmem (gs s) x; jobs := upd_job (jobs s) j x' |}.
Proof.
  intros E H I. cbn [gstep]. rewrite E. destruct x as [[|st q] n out i]; [discriminate|].
  unfold jlocal in H; cbn [j_todo j_count j_out j_inside] in H. unfold jmem; cbn [j_todo].
  destruct st; rewrite ?I; try (destruct (g_ctr (gs s) c =? 0); [discriminate|]); now injection H as <-.
Qed.

(** ** Threads under resets *)
Lemma gthread_inv s b s' : gstep s (GThread b) = GNext s' -> mstep (gs s) b = Next (gs s') /\ jobs s' = jobs s.
Proof.
  cbn [gstep]. destruct (match b with AEnter _ => _ | _ => _ end); [discriminate|].
  destruct (mstep (gs s) b) as [m| |]; try discriminate. intros H. injection H as <-. auto.
Qed.

Lemma probes_act a : Forall probe_ok (probes (GThread a)) -> act_ok a.
Proof. destruct a; simpl; auto. intros H. now inversion H. Qed.
Lemma probes_gain c a : total c (probes (GThread a)) = gain c a.
Proof. destruct a; simpl; try reflexivity. unfold total; simpl. lia. Qed.
Lemma total_app c a b : total c (a ++ b) = total c a + total c b.
Proof. induction a as [|p a IH]; [reflexivity|]. cbn [app]. rewrite !total_cons, IH. lia. Qed.

Lemma twf_reach r n s ps : greach r n s ps -> Forall twf (m_threads (gs s)).
Proof.
  induction 1 as [|s ps a s' HR IH Hr Hp HS]; [apply (minit_ok n CInit)|].
  destruct a as [a| | |j].
  - apply gthread_inv in HS as [HS _]. pose proof (probes_act _ Hp) as A.
    clear -IH A HS. destruct a as [t p|t|t|t|t]; simpl in HS;
      destruct (nth_error (m_threads (gs s)) t) as [[l [q|] b]|] eqn:Ht; try discriminate;
      pose proof (nth_error_twf _ _ _ IH Ht) as HW.
    + injection HS as <-. apply Forall_upd_thread; auto. exact (twf_probe _ p HW eq_refl).
    + injection HS as <-. apply Forall_upd_thread; auto. destruct HW as [W1 W2 W3 W4]. split; cbn [t_local t_todo] in *; auto.
      intros q E. inversion E; subst. now apply NoDup_report.
    + destruct q as [|[] q]; try discriminate. destruct b; [discriminate|].
      destruct (existsb _ _); [discriminate|]. injection HS as <-. apply Forall_upd_thread; auto.
      destruct HW as [W1 W2 W3 W4]. split; auto.
    + destruct q as [|c0 q]; [discriminate|]. destruct HW as [W1 W2 W3 W4]. cbn [t_local t_todo] in *.
      pose proof (W4 _ eq_refl) as HN. inversion HN; subst.
      assert (HT : m_threads (gs s') = upd_thread (m_threads (gs s)) t {| t_local := l; t_todo := Some q; t_inside := false |}).
      { destruct c0; try (injection HS as <-; reflexivity). destruct b; [injection HS as <-; reflexivity|discriminate]. }
      rewrite HT. apply Forall_upd_thread; auto. split; simpl; auto. intros q' E. inversion E; subst. auto.
    + destruct q; [|discriminate]. injection HS as <-. apply Forall_upd_thread; auto.
      split; simpl; intros; auto; try discriminate. constructor. unfold word, M64; lia.
  - injection HS as <-. exact IH.
  - injection HS as <-. exact IH.
  - apply gjob_inv in HS as (x & x' & E & _ & ->). cbn [gs]. unfold jmem. destruct (j_todo x) as [|[] q]; exact IH.
Qed.

(** ** reset *)
Lemma start_conserved m c : Forall twf (m_threads m) -> g_ctr m c = 0 -> conserved m (sum_unreported c (m_threads m)) c.
Proof.
  intros HW H0. exists 0, (map (unreported c) (m_threads m)). split; [lia|]. split; [rewrite H0; reflexivity|]. split.
  - induction HW as [|x l Hx HW IH]; simpl; constructor; auto.
    assert (word (unreported c x)).
    { unfold unreported. destruct (t_todo x) as [q|]; [destruct (existsb (ctr_eqb c) q)|]; try apply (W_word _ Hx). unfold word, M64; lia. }
    destruct H. split; [lia|]. symmetry. apply Z.mod_small. unfold M64 in *. lia.
  - unfold sum_unreported. clear. induction (m_threads m); simpl; auto. lia.
Qed.

Lemma since_store c s ps s' : unstored c s ps s' -> Forall twf (m_threads (gs s)) -> forall T, conserved (gs s) T c ->
  Forall twf (m_threads (gs s')) /\ conserved (gs s') (T + total c ps) c.
Proof.
  induction 1 as [|s ps s1 a s2 HU IH HN HP HS]; intros HW T HC.
  - unfold total; simpl. rewrite Z.add_0_r. auto.
  - destruct (IH HW T HC) as [W1 C1]. destruct a as [a| | |j].
    + apply gthread_inv in HS as [HS _]. rewrite total_app, probes_gain, (Z.add_comm (gain c a)), Z.add_assoc.
      eapply mstep_step; eauto. now apply probes_act.
    + injection HS as <-. auto.
    + injection HS as <-. auto.
    + apply gjob_inv in HS as (x & x' & E & _ & ->). cbn [gs probes app].
      unfold jmem. destruct (j_todo x) as [|st q] eqn:ET; auto. destruct st as [c1|  |c1|l1 c1|c1| | |]; auto.
      split; [exact W1|]. destruct C1 as (G & Ls & H0 & HG & HF & HT). exists G, Ls. split; auto. split; [|auto].
      cbn [g_ctr store_zero]. unfold set_ctr. destruct (ctr_eqb_spec c c1) as [->|]; auto.
      exfalso. apply HN. exists j, x, q. auto.
Qed.

Lemma since_reset n s0 ps0 a c s1 ps s2 : greach true n s0 ps0 -> stores s0 a c -> gstep s0 a = GNext s1 -> unstored c s1 ps s2 ->
  let T := sum_unreported c (m_threads (gs s0)) + total c ps in
  (g_ctr (gs s2) c + sum_unreported c (m_threads (gs s2))) mod M64 = T mod M64 /\
  (T < M64 -> g_ctr (gs s2) c + sum_unreported c (m_threads (gs s2)) = T).
Proof.
  intros HR (j & x & q & -> & Ex & Et) HS HU T. apply gjob_inv in HS as (y & y' & Ey & _ & ->).
  assert (y = x) by congruence. subst y. unfold jmem in HU. rewrite Et in HU.
  pose proof (twf_reach _ _ _ _ HR) as HW. apply conserved_eq.
  eapply (since_store c _ ps s2 HU); [exact HW|]. cbn [gs].
  apply (start_conserved (store_zero (gs s0) c) c HW). cbn. unfold set_ctr. now rewrite ctr_eqb_refl.
Qed.

(** ** Shares of a total *)
Lemma greach_mreach n s ps : greach false n s ps -> mreach n (gs s) ps /\ Forall (fun x => Forall (fun st => forall c, st <> JStore c /\ st <> JStoreAll /\ forall d, st <> JPercent (LCounter c) d) (j_todo x)) (jobs s).
Proof.
  induction 1 as [|s ps a s' HR [IM IJ] Hr Hp HS]; [split; constructor|]. destruct a as [a| | |j].
  - apply gthread_inv in HS as [HS HJ]. rewrite HJ. split; auto.
    destruct a as [t p|t|t|t|t]; simpl probes; cbn [app];
      [eapply mreach_probe; eauto; now inversion Hp|eapply mreach_other; eauto; discriminate..].
  - injection HS as <-. cbn [gs jobs probes app]. split; auto. apply Forall_app. split; auto. constructor; [|constructor].
    cbn [new_job j_todo]. unfold string_steps, distribution, alloc_size_bucket, destruct_lifetime_bucket. cbn [map app combine seq flat_map fst snd].
    repeat (constructor; [intros c; repeat split; discriminate|]). constructor.
  - discriminate (Hr eq_refl).
  - apply gjob_inv in HS as (x & x' & E & L & ->). cbn [gs jobs probes app].
    pose proof (proj1 (Forall_forall _ _) IJ x (nth_error_In _ _ E)) as Hx. cbv beta in Hx.
    unfold jlocal in L. unfold jmem. destruct (j_todo x) as [|st q] eqn:ET; [discriminate|].
    inversion Hx as [|? ? Hst Hq]; subst.
    assert (HJ : Forall (fun st => forall c, st <> JStore c /\ st <> JStoreAll /\ forall d, st <> JPercent (LCounter c) d) (j_todo x')).
    { destruct st; try (destruct (_ =? _); [discriminate|]); injection L as <-; cbn [j_todo]; auto.
      - apply Forall_app. split.
        + apply Forall_map, Forall_forall. intros k _ c; repeat split; discriminate.
        + constructor; auto. intros c; repeat split; discriminate.
      - destruct (Hst CInit) as (_ & F & _). now contradiction F. }
    split.
    + destruct st; auto. destruct (Hst c) as [F _]. now contradiction F.
    + apply Forall_forall. intros y Hy. apply in_upd_job in Hy as [->|Hy]; auto. revert y Hy. now apply Forall_forall.
Qed.

Definition sumk (mk : nat -> ctr) (f : ctr -> Z) (l : list nat) : Z := fold_right (fun k s => f (mk k) + s) 0 l.
Lemma sumk_le mk f g l : (forall k, In k l -> f (mk k) <= g (mk k)) -> sumk mk f l <= sumk mk g l.
Proof. induction l as [|k l IH]; simpl; intros H; [lia|]. pose proof (H k (or_introl eq_refl)). assert (sumk mk f l <= sumk mk g l) by (apply IH; auto). unfold sumk in *. lia. Qed.
Lemma sumk_add mk f g l : sumk mk (fun c => f c + g c) l = sumk mk f l + sumk mk g l.
Proof. unfold sumk. induction l; simpl; lia. Qed.
Lemma sumk_nonneg mk f l : (forall k, In k l -> 0 <= f (mk k)) -> 0 <= sumk mk f l.
Proof. induction l as [|k l IH]; simpl; intros H; [lia|]. pose proof (H k (or_introl eq_refl)). assert (0 <= sumk mk f l) by auto. unfold sumk in *. lia. Qed.
Lemma sumk_one mk f l k : (forall k, In k l -> 0 <= f (mk k)) -> In k l -> f (mk k) <= sumk mk f l.
Proof.
  intros H. induction l as [|i l IH]; intros []; simpl.
  - subst. pose proof (sumk_nonneg mk f l). unfold sumk in *. pose proof (H0 (fun k H1 => H k (or_intror H1))). lia.
  - pose proof (H i (or_introl eq_refl)). pose proof (IH (fun k H1 => H k (or_intror H1)) H0). unfold sumk in *. lia.
Qed.

Section Family.
Variable d : ctr.
Variable mk : nat -> ctr.
Hypothesis mk_inj : forall i j, mk i = mk j -> i = j.
Hypothesis mk_d : forall k, mk k <> d.
Hypothesis order : exists A B, fixed_counters = A ++ d :: B /\ forall k, ~ In (mk k) A.
Hypothesis parts : forall p, probe_ok p -> sumk mk (fun c => contribution c p) (seq 0 8) <= contribution d p.

Definition buckets (f : ctr -> Z) : Z := sumk mk f (seq 0 8).

Lemma parts_total ps : Forall probe_ok ps -> buckets (fun c => total c ps) <= total d ps.
Proof.
  induction 1 as [|p ps Hp HF IH]; [vm_compute; congruence|].
  unfold buckets. erewrite (sumk_le mk _ (fun c => contribution c p + total c ps)); [|intros; rewrite total_cons; lia].
  rewrite sumk_add, total_cons. pose proof (parts p Hp). unfold buckets in IH. lia.
Qed.
Lemma part_total ps k : Forall probe_ok ps -> (k < 8)%nat -> total (mk k) ps <= total d ps.
Proof.
  intros HF Hk. pose proof (parts_total ps HF).
  assert (total (mk k) ps <= buckets (fun c => total c ps)); [|lia].
  apply (sumk_one mk (fun c => total c ps)); [intros; now apply total_nonneg|apply in_seq; lia].
Qed.

(** What a thread in the middle of a report has still to add to the buckets,
    having added the whole to [d]. *)
Definition owed (x : thread) : Z :=
  match t_todo x with
  | None => 0
  | Some q => if existsb (ctr_eqb d) q then 0 else buckets (fun c => unreported c x)
  end.
Definition sum_owed (l : list thread) : Z := fold_right (fun x s => owed x + s) 0 l.
Record tfam (x : thread) : Prop := {
  F_local : buckets (l_ctr (t_local x)) <= l_ctr (t_local x) d;
  F_suffix : forall q, t_todo x = Some q -> exists pre, report_order (t_local x) = pre ++ q }.

Lemma sum_upd (f : thread -> Z) l t x x' : nth_error l t = Some x ->
  fold_right (fun x s => f x + s) 0 (upd_thread l t x') = fold_right (fun x s => f x + s) 0 l - f x + f x'.
Proof.
  revert t. induction l as [|y l IH]; intros [|t]; simpl; intros H; try discriminate.
  - injection H as ->. lia.
  - rewrite (IH t) by auto. lia.
Qed.
Lemma sum_member (f : thread -> Z) l t x : (forall y, In y l -> 0 <= f y) -> nth_error l t = Some x ->
  f x <= fold_right (fun x s => f x + s) 0 l.
Proof.
  revert t. induction l as [|y l IH]; intros [|t] H; simpl; intros E; try discriminate.
  - injection E as ->. assert (0 <= fold_right (fun x s => f x + s) 0 l); [|lia].
    clear -H. induction l as [|z l IH]; simpl; [lia|]. pose proof (H z (or_intror (or_introl eq_refl))).
    assert (0 <= fold_right (fun x s => f x + s) 0 l); [|lia]. apply IH. intros y [->|Hy]; apply H; simpl; auto.
  - pose proof (H y (or_introl eq_refl)). pose proof (IH t (fun z Hz => H z (or_intror Hz)) E). lia.
Qed.

Lemma after_d pre m r l k : report_order l = pre ++ m :: r -> NoDup (report_order l) -> m = mk k -> ~ In d r.
Proof.
  intros E HN -> Hin. destruct order as (A & B & EF & HA). unfold report_order in *. rewrite EF, <- app_assoc in *. cbn [app] in *.
  apply in_split in Hin as (r1 & r2 & ->).
  assert (E' : A ++ d :: (B ++ map CLoc (l_keys l)) = (pre ++ mk k :: r1) ++ d :: r2) by (rewrite <- app_assoc; exact E).
  assert (ND : ~ In d A /\ ~ In d (pre ++ mk k :: r1)).
  { split.
    - pose proof (NoDup_remove_2 _ _ _ HN) as H. rewrite in_app_iff in H. tauto.
    - rewrite E' in HN. pose proof (NoDup_remove_2 _ _ _ HN) as H. rewrite in_app_iff in H. tauto. }
  destruct ND as [N1 N2]. assert (A = pre ++ mk k :: r1).
  { clear -E' N1 N2. revert E' N1 N2. generalize (pre ++ mk k :: r1) as P, (B ++ map CLoc (l_keys l)) as Q. revert A.
    induction A as [|a A IH]; intros P Q E N1 N2; destruct P as [|b P]; auto; simpl in E; injection E as E0 E1.
    - subst. exfalso. apply N2. now left.
    - subst. exfalso. apply N1. now left.
    - subst. f_equal. eapply IH; eauto; intros H; [apply N1|apply N2]; now right. }
  apply (HA k). subst A. rewrite in_app_iff. right. now left.
Qed.

Lemma fam_reach n s ps : mreach n s ps -> total d ps < M64 ->
  Forall probe_ok ps /\ Forall tfam (m_threads s) /\ buckets (g_ctr s) + sum_owed (m_threads s) <= g_ctr s d.
Proof.
  assert (NN : forall c m, Forall twf (m_threads m) -> 0 <= sum_unreported c (m_threads m) /\ (forall t x, nth_error (m_threads m) t = Some x -> unreported c x <= sum_unreported c (m_threads m) /\ 0 <= unreported c x)).
  { intros c m HW. assert (U : forall y, In y (m_threads m) -> 0 <= unreported c y).
    { intros y Hy. pose proof (proj1 (Forall_forall _ _) HW y Hy) as W. unfold unreported.
      destruct (t_todo y); [destruct (existsb _ _)|]; try apply (W_word _ W); lia. }
    split.
    - unfold sum_unreported. revert U. generalize (m_threads m). induction l as [|y l IH]; simpl; intros U; [lia|].
      pose proof (U y (or_introl eq_refl)). pose proof (IH (fun z Hz => U z (or_intror Hz))). lia.
    - intros t x Ex. split; [now apply (sum_member (unreported c) _ t)|]. apply U. eapply nth_error_In; eauto. }
  assert (GN : forall m qs c, mreach n m qs -> 0 <= g_ctr m c).
  { intros m qs c HR. destruct (mstep_ok n m qs HR) as [_ HC]. destruct (HC c) as (G & Ls & H0 & HG & _). rewrite HG.
    apply Z.mod_pos_bound. pose proof M64_pos; lia. }
  induction 1 as [|s ps t p s' HR IH Hp HS|s ps a s' HR IH Ha HS]; intros HT.
  - split; [constructor|]. split.
    + simpl. clear. induction n; simpl; constructor; auto. split; [vm_compute; congruence|discriminate].
    + simpl. replace (sum_owed (repeat idle_thread n)) with 0 by (clear; induction n; simpl; auto). vm_compute. congruence.
  - rewrite total_cons in HT. pose proof (contribution_nonneg d p Hp) as Cd.
    destruct IH as (IP & IF & I3); [lia|]. split; [now constructor|].
    destruct (mstep_ok n s ps HR) as [IW IC]. destruct (conserved_eq s _ d (IC d)) as [_ CE].
    specialize (CE ltac:(lia)). destruct (NN d s IW) as (_ & N2).
    simpl in HS. destruct (nth_error (m_threads s) t) as [[l [q|] b]|] eqn:Ht; try discriminate. injection HS as <-.
    pose proof (nth_error_twf _ _ _ IW Ht) as HW. pose proof (proj1 (Forall_forall _ _) IF _ (nth_error_In _ _ Ht)) as [F1 F2].
    destruct (N2 _ _ Ht) as [Nx _]. unfold unreported in Nx; simpl in Nx. cbn [t_local t_todo] in *.
    pose proof (GN s ps d HR) as G0.
    split.
    + simpl. apply Forall_upd_thread; auto. split; cbn [t_local t_todo]; [|discriminate].
      rewrite (apply_probe_ctr l p d) by apply (W_word _ HW). rewrite Z.mod_small.
      2:{ pose proof (W_word _ HW d) as W. cbn [t_local] in W. destruct W. unfold M64 in *. lia. }
      unfold buckets in *. pose proof (parts p Hp). rewrite (sumk_le mk _ (fun c => l_ctr l c + contribution c p)).
      * rewrite sumk_add. lia.
      * intros k _. rewrite apply_probe_ctr by apply (W_word _ HW). apply Z.mod_le; [|pose proof M64_pos; lia].
        pose proof (W_word _ HW (mk k)) as [? ?]. cbn [t_local] in *. pose proof (contribution_nonneg (mk k) p Hp). lia.
    + simpl. unfold sum_owed in *. rewrite (sum_upd owed _ t _ _ Ht). set (W := fold_right (fun x z => owed x + z) 0 (m_threads s)) in *. unfold owed. simpl. lia.
  - destruct (IH HT) as (IP & IF & I3). split; auto. clear IH.
    destruct (mstep_ok n s ps HR) as [IW IC].
    destruct a as [t p|t|t|t|t]; [exfalso; eapply Ha; reflexivity| | | |]; simpl in HS;
      destruct (nth_error (m_threads s) t) as [[l [q|] b]|] eqn:Ht; try discriminate;
      pose proof (proj1 (Forall_forall _ _) IF _ (nth_error_In _ _ Ht)) as [F1 F2]; cbn [t_local t_todo] in *;
      pose proof (nth_error_twf _ _ _ IW Ht) as HW.
    + injection HS as <-. split.
      * simpl. apply Forall_upd_thread; auto. split; cbn [t_local t_todo]; auto. intros q E. injection E as <-. exists []. reflexivity.
      * simpl. unfold sum_owed in *. rewrite (sum_upd owed _ t _ _ Ht). set (W := fold_right (fun x z => owed x + z) 0 (m_threads s)) in *. unfold owed. cbn [t_todo].
        assert (E : existsb (ctr_eqb d) (report_order l) = true).
        { apply existsb_ctr, in_report. left. destruct order as (A & B & -> & _). rewrite in_app_iff. right. now left. }
        rewrite E. lia.
    + destruct q as [|[] q]; try discriminate. destruct b; [discriminate|].
      destruct (existsb _ (m_threads s)); [discriminate|]. injection HS as <-. split.
      * apply Forall_upd_thread; auto. split; simpl; auto.
      * simpl. unfold sum_owed in *. rewrite (sum_upd owed _ t _ _ Ht). set (W := fold_right (fun x z => owed x + z) 0 (m_threads s)) in *. unfold owed, unreported. cbn [t_todo t_local]. lia.
    + destruct q as [|c0 q]; [discriminate|].
      assert (HS' : s' = {| m_threads := upd_thread (m_threads s) t {| t_local := l; t_todo := Some q; t_inside := false |};
                      g_ctr := set_ctr (g_ctr s) c0 (add64 (g_ctr s c0) (l_ctr l c0));
                      g_keys := match c0 with
                                | CLoc k => if has_key k (g_keys s) then g_keys s else k :: g_keys s
                                | _ => g_keys s end |}).
      { destruct c0; try (injection HS as <-; reflexivity). destruct b; [injection HS as <-; reflexivity|discriminate]. }
      subst s'. clear HS. destruct (F2 _ eq_refl) as (pre & EP).
      pose proof (W_todo _ HW _ eq_refl) as HN. inversion HN as [|? ? HN1 HN2]; subst.
      split.
      * simpl. apply Forall_upd_thread; auto. split; cbn [t_local t_todo]; auto. intros q' E. injection E as <-.
        exists (pre ++ [c0]). rewrite <- app_assoc. exact EP.
      * cbn [g_ctr m_threads]. unfold sum_owed in *. rewrite (sum_upd owed _ t _ _ Ht). set (W := fold_right (fun x z => owed x + z) 0 (m_threads s)) in *.
        assert (NOWRAP : forall c, total c ps < M64 -> c = c0 -> add64 (g_ctr s c0) (l_ctr l c0) = g_ctr s c0 + l_ctr l c0).
        { intros c Hc ->. apply add64_small. destruct (conserved_eq s _ c0 (IC c0)) as [_ CE]. specialize (CE Hc).
          destruct (NN c0 s IW) as (_ & N2). destruct (N2 _ _ Ht) as [Nx _]. unfold unreported in Nx. simpl in Nx.
          rewrite ctr_eqb_refl in Nx. simpl in Nx. pose proof (GN s ps c0 HR). pose proof (W_word _ HW c0) as [? ?]. cbn [t_local] in *. unfold M64 in *. lia. }
        destruct (ctr_eqb_spec c0 d) as [->|ND].
        -- (* the whole *)
           unfold owed at 1. cbn [t_todo existsb]. rewrite ctr_eqb_refl. cbn [orb].
           unfold set_ctr at 2. rewrite ctr_eqb_refl, (NOWRAP d HT eq_refl).
           replace (buckets (set_ctr (g_ctr s) d (g_ctr s d + l_ctr l d))) with (buckets (g_ctr s)).
           2:{ unfold buckets, sumk. clear -mk_d. induction (seq 0 8) as [|k l0 IH]; simpl; auto. rewrite <- IH. unfold set_ctr.
               destruct (ctr_eqb_spec (mk k) d) as [E|]; [now apply mk_d in E|reflexivity]. }
           unfold owed. cbn [t_todo]. rewrite (existsb_ctr_false d q) by auto.
           assert (buckets (fun c => unreported c {| t_local := l; t_todo := Some q; t_inside := false |}) <= buckets (l_ctr l)).
           { apply sumk_le. intros k _. unfold unreported. cbn [t_todo t_local]. destruct (existsb _ _); [lia|]. apply (W_word _ HW (mk k)). }
           lia.
        -- unfold set_ctr at 2. destruct (ctr_eqb_spec d c0) as [E|_]; [congruence|].
           assert (DQ : existsb (ctr_eqb d) (c0 :: q) = existsb (ctr_eqb d) q).
           { simpl. destruct (ctr_eqb_spec d c0); [congruence|reflexivity]. }
           destruct (in_dec (fun x y => match ctr_eqb_spec x y with ReflectT _ E => left E | ReflectF _ E => right E end) c0 (map mk (seq 0 8))) as [Hin|Hout].
           ++ apply in_map_iff in Hin as (k & Ek & Hk). apply in_seq in Hk.
              assert (HD : ~ In d q) by (eapply after_d; eauto; now apply NoDup_report, (W_nodup _ HW)).
              unfold owed. cbn [t_todo]. rewrite DQ, existsb_ctr_false by auto.
              rewrite (NOWRAP (mk k)); [|pose proof (part_total ps k IP ltac:(lia)); lia|congruence].
              assert (E : buckets (set_ctr (g_ctr s) c0 (g_ctr s c0 + l_ctr l c0)) +
                          buckets (fun c => unreported c {| t_local := l; t_todo := Some q; t_inside := false |}) =
                          buckets (g_ctr s) + buckets (fun c => unreported c {| t_local := l; t_todo := Some (c0 :: q); t_inside := b |})).
              { unfold buckets. rewrite <- !sumk_add. unfold sumk. clear -Ek HN1. induction (seq 0 8) as [|i l0 IH]; simpl; auto.
                rewrite IH. f_equal. unfold set_ctr, unreported. cbn [t_todo t_local existsb].
                destruct (ctr_eqb_spec (mk i) c0) as [E|NE]; simpl; auto.
                rewrite E, existsb_ctr_false by auto. lia. }
              lia.
           ++ unfold owed. cbn [t_todo]. rewrite DQ.
              replace (buckets (set_ctr (g_ctr s) c0 (add64 (g_ctr s c0) (l_ctr l c0)))) with (buckets (g_ctr s)).
              2:{ unfold buckets, sumk. clear -Hout. induction (seq 0 8) as [|k l0 IH]; simpl in *; auto. rewrite <- IH by tauto. unfold set_ctr.
                  destruct (ctr_eqb_spec (mk k) c0); [tauto|reflexivity]. }
              replace (buckets (fun c => unreported c {| t_local := l; t_todo := Some q; t_inside := false |}))
                with (buckets (fun c => unreported c {| t_local := l; t_todo := Some (c0 :: q); t_inside := b |})).
              2:{ unfold buckets, sumk. clear -Hout. induction (seq 0 8) as [|k l0 IH]; simpl in *; auto. rewrite <- IH by tauto. f_equal.
                  unfold unreported. cbn [t_todo t_local existsb]. destruct (ctr_eqb_spec (mk k) c0); [tauto|reflexivity]. }
              lia.
    + destruct q; [|discriminate]. injection HS as <-. split.
      * apply Forall_upd_thread; auto. split; cbn; [lia|discriminate].
      * simpl. unfold sum_owed in *. rewrite (sum_upd owed _ t _ _ Ht). set (W := fold_right (fun x z => owed x + z) 0 (m_threads s)) in *. unfold owed. cbn [t_todo existsb].
        unfold buckets at 2. unfold unreported. cbn [t_todo existsb]. unfold sumk. simpl. lia.
Qed.

Lemma owed_nonneg s n ps : mreach n s ps -> 0 <= sum_owed (m_threads s).
Proof.
  intros HR. destruct (mstep_ok n s ps HR) as [IW _]. unfold sum_owed. induction IW as [|x l Hx IW IH]; simpl; [lia|].
  assert (0 <= owed x); [|lia]. unfold owed. destruct (t_todo x) eqn:E; [|lia]. destruct (existsb _ _); [lia|].
  apply sumk_nonneg. intros k _. unfold unreported. rewrite E. destruct (existsb _ _); [apply (W_word _ Hx)|lia].
Qed.
Lemma fam_bound n s ps : mreach n s ps -> total d ps < M64 -> buckets (g_ctr s) <= g_ctr s d.
Proof. intros HR HT. destruct (fam_reach n s ps HR HT) as (_ & _ & H). pose proof (owed_nonneg s n ps HR). lia. Qed.
End Family.
