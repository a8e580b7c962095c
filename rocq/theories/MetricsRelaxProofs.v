(** Proofs about relaxed executions of the global metrics. *)
Require Import ZArith List Bool Lia Permutation.
From Verif Require Import Base BaseProofs ArenaSpec MetricsSpec MetricsModel MetricsStatements MetricsProofs
  MetricsGlobalModel MetricsGlobalStatements MetricsGlobalProofs MetricsRelaxModel MetricsRelaxSpec.
Import ListNotations.
Open Scope Z_scope.

Definition sumf {T} (f : T -> Z) (l : list T) : Z := fold_right (fun e s => f e + s) 0 l.
Lemma sumf_app {T} (f : T -> Z) a b : sumf f (a ++ b) = sumf f a + sumf f b.
Proof. induction a; cbn [sumf fold_right app] in *; [reflexivity|]. fold (sumf f (a0 ++ b)). fold (sumf f a0). lia. Qed.
Lemma sumf_cons {T} (f : T -> Z) a b : sumf f (a :: b) = f a + sumf f b.
Proof. reflexivity. Qed.
Lemma sumf_nonneg {T} (f : T -> Z) l : (forall e, In e l -> 0 <= f e) -> 0 <= sumf f l.
Proof. induction l as [|a l IH]; intros H; [cbn; lia|]. rewrite sumf_cons. pose proof (H a (or_introl eq_refl)). assert (0 <= sumf f l) by (apply IH; intros; apply H; now right). lia. Qed.
Lemma sumf_perm {T} (f : T -> Z) l m : Permutation l m -> sumf f l = sumf f m.
Proof. induction 1; rewrite ?sumf_cons in *; try lia; congruence. Qed.
Lemma sumf_incl {T} (f : T -> Z) l : NoDup l -> forall m, incl l m -> (forall e, In e m -> 0 <= f e) -> sumf f l <= sumf f m.
Proof.
  induction 1 as [|a l Ha ND IH]; intros m HI Hf; [now apply sumf_nonneg|].
  destruct (in_split a m (HI a (or_introl eq_refl))) as (m1 & m2 & ->).
  assert (L : sumf f l <= sumf f (m1 ++ m2)).
  { apply IH.
    - intros e He. pose proof (HI e (or_intror He)) as Hm. apply in_app_or in Hm as [Hm|[->|Hm]]; [apply in_or_app; now left|contradiction|apply in_or_app; now right].
    - intros e He. apply Hf. apply in_app_or in He as [He|He]; apply in_or_app; [left|right; right]; auto. }
  rewrite sumf_app in *. rewrite !sumf_cons. lia.
Qed.
Lemma sumf_filter {T} (f : T -> Z) (p : T -> bool) l : sumf f (filter p l) + sumf f (filter (fun e => negb (p e)) l) = sumf f l.
Proof. induction l as [|a l IH]; [reflexivity|]. cbn [filter]. destruct (p a); cbn [negb]; rewrite ?sumf_cons in *; lia. Qed.
Lemma sumf_ext {T} (f g : T -> Z) l : (forall e, In e l -> f e = g e) -> sumf f l = sumf g l.
Proof. induction l as [|a l IH]; intros H; [reflexivity|]. rewrite !sumf_cons, (H a) by now left. f_equal. apply IH. intros; apply H; now right. Qed.
Lemma sumf_map {T U} (f : U -> Z) (g : T -> U) l : sumf f (map g l) = sumf (fun e => f (g e)) l.
Proof. induction l; [reflexivity|]. cbn [map]. rewrite !sumf_cons. lia. Qed.
Lemma sumf_flat {T U} (f : U -> Z) (g : T -> list U) l : sumf f (flat_map g l) = sumf (fun e => sumf f (g e)) l.
Proof. induction l; [reflexivity|]. cbn [flat_map]. rewrite sumf_app, !sumf_cons. lia. Qed.
Lemma sumf_where {T} (f : T -> Z) (p : T -> bool) l : sumf f (filter p l) = sumf (fun e => if p e then f e else 0) l.
Proof. induction l as [|a l IH]; [reflexivity|]. cbn [filter]. rewrite sumf_cons. destruct (p a); rewrite ?sumf_cons; lia. Qed.
Lemma sumf_nth {T} (h : option T -> Z) l : sumf (fun i => h (nth_error l i)) (seq 0 (length l)) = sumf (fun a => h (Some a)) l.
Proof.
  induction l as [|a l IH]; [reflexivity|]. cbn [length seq]. rewrite !sumf_cons. cbn [nth_error]. rewrite <- IH, <- seq_shift, sumf_map. reflexivity.
Qed.

(** ** Accesses of a list of programs *)
Definition acts_of (ps : list (list call)) (t : nat) : list act := match nth_error ps t with Some cs => acts local_reset cs | None => [] end.
Definition events (ps : list (list call)) : list eid :=
  flat_map (fun t => map (pair t) (seq 0 (length (acts_of ps t)))) (seq 0 (length ps)).
Definition adds_to (c : ctr) (a : option act) : bool := match a with Some (Add c' _) => ctr_eqb c' c | _ => false end.
Definition by_how_much (a : option act) : Z := match a with Some (Add _ d) => d | _ => 0 end.
Definition added (c : ctr) (a : option act) : Z := if adds_to c a then by_how_much a else 0.

Lemma act_in_of ps t i : act_in ps (t, i) = nth_error (acts_of ps t) i.
Proof. unfold act_in, acts_of. cbn [fst snd]. destruct (nth_error ps t); [reflexivity|]. now destruct i. Qed.

Lemma in_events ps e : In e (events ps) <-> act_in ps e <> None.
Proof.
  destruct e as [t i]. rewrite act_in_of. unfold events. rewrite in_flat_map. split.
  - intros (u & _ & H). apply in_map_iff in H as (j & E & Hj). injection E as -> ->. apply in_seq in Hj. apply nth_error_Some. lia.
  - intros H. exists t. split.
    + apply in_seq. split; [lia|]. unfold acts_of in H. destruct (nth_error ps t) eqn:E; [|now destruct i]. apply nth_error_Some. congruence.
    + apply in_map. apply in_seq. apply nth_error_Some in H. lia.
Qed.

Lemma NoDup_events ps : NoDup (events ps).
Proof.
  unfold events. generalize (seq_NoDup (length ps) 0). generalize (seq 0 (length ps)). intros l. induction l as [|t l IH]; intros ND; [constructor|].
  inversion ND as [|? ? Ht ND']; subst. cbn [flat_map]. apply NoDup_app_intro.
  - apply NoDup_map_inj; [congruence|apply seq_NoDup].
  - now apply IH.
  - intros [u i] H1 H2. apply in_map_iff in H1 as (j & E & _). injection E as -> ->. apply in_flat_map in H2 as (v & Hv & H2). apply in_map_iff in H2 as (j' & E & _). injection E as -> ->. contradiction.
Qed.

Definition adds (ps : list (list call)) (c : ctr) : list eid := filter (fun e => adds_to c (act_in ps e)) (events ps).
Lemma in_adds ps c e : In e (adds ps c) <-> exists d, act_in ps e = Some (Add c d).
Proof.
  unfold adds. rewrite filter_In, in_events. unfold adds_to. split.
  - intros [_ H]. destruct (act_in ps e) as [[c' d|]|]; try discriminate. destruct (ctr_eqb_spec c' c) as [->|]; [eauto|discriminate].
  - intros (d & ->). split; [discriminate|apply ctr_eqb_refl].
Qed.
Lemma NoDup_adds ps c : NoDup (adds ps c).
Proof. apply NoDup_filter, NoDup_events. Qed.

Lemma sum_adds ps c : sumf (fun e => by_how_much (act_in ps e)) (adds ps c) = sumf (fun cs => sumf (fun a => added c (Some a)) (acts local_reset cs)) ps.
Proof.
  unfold adds. rewrite sumf_where. unfold events. rewrite sumf_flat.
  rewrite (sumf_ext _ (fun t => (fun o => match o with Some cs => sumf (fun a => added c (Some a)) (acts local_reset cs) | None => 0 end) (nth_error ps t))).
  - exact (sumf_nth (fun o => match o with Some cs => sumf (fun a => added c (Some a)) (acts local_reset cs) | None => 0 end) ps).
  - intros t _. rewrite sumf_map. rewrite (sumf_ext _ (fun i => added c (nth_error (acts_of ps t) i))) by (intros i _; now rewrite act_in_of).
    rewrite (sumf_nth (added c) (acts_of ps t)). unfold acts_of. now destruct (nth_error ps t).
Qed.

(** ** The amounts of a thread *)
Lemma sum_report c (f : ctr -> Z) L : NoDup L -> sumf (fun a => added c (Some a)) (map (fun c' => Add c' (f c')) L) = if existsb (ctr_eqb c) L then f c else 0.
Proof.
  rewrite sumf_map. unfold added, adds_to, by_how_much. induction 1 as [|a L Ha ND IH]; [reflexivity|]. rewrite sumf_cons, IH. cbn [existsb].
  destruct (ctr_eqb_spec a c) as [->|N].
  - rewrite ctr_eqb_refl. cbn [orb]. rewrite existsb_ctr_false by exact Ha. lia.
  - destruct (ctr_eqb_spec c a) as [->|N']; [congruence|]. cbn [orb]. lia.
Qed.
Lemma sum_loads c (L : list ctr) : sumf (fun a => added c (Some a)) (map Load L) = 0.
Proof. rewrite sumf_map. induction L; [reflexivity|]. rewrite sumf_cons. cbn [added adds_to]. exact IHL. Qed.

Lemma acts_sum c cs : forall l since, (forall d, l_ctr l d = total d since mod M64) -> In c fixed_counters ->
  Forall probe_ok since -> Forall probe_ok (recorded cs) -> total c (reported since cs) < M64 ->
  sumf (fun a => added c (Some a)) (acts l cs) = total c (reported since cs).
Proof.
  induction cs as [|k cs IH]; intros l since Hl Hc Hs Hr HT; [reflexivity|].
  destruct k as [p| |]; cbn [acts reported recorded flat_map app] in *.
  - inversion Hr; subst. apply IH; auto. intros d. rewrite apply_probe_ctr by (rewrite Hl; apply word_mod).
    rewrite Hl, total_cons. rewrite Z.add_comm, Zplus_mod_idemp_r. reflexivity.
  - assert (HP : 0 <= total c (reported [] cs)).
    { apply total_nonneg. clear - Hr. cut (forall since, Forall probe_ok since -> Forall probe_ok (reported since cs)); [intros H; apply H; constructor|].
      induction cs as [|k cs IH]; intros since Hs; [constructor|]. destruct k as [p| |]; cbn [reported recorded flat_map app] in *.
      - inversion Hr; subst. apply IH; auto.
      - apply Forall_app. split; auto.
      - auto. }
    pose proof (total_nonneg c since Hs). rewrite total_app in *.
    rewrite sumf_app, sum_report by apply NoDup_fixed. replace (existsb (ctr_eqb c) fixed_counters) with true by (symmetry; now apply existsb_ctr).
    rewrite Hl, Z.mod_small by lia. rewrite (IH local_reset []); auto; lia.
  - rewrite sumf_app, sum_loads. rewrite (IH l since); auto.
Qed.

Lemma reported_ok cs : forall since, Forall probe_ok since -> Forall probe_ok (recorded cs) -> Forall probe_ok (reported since cs).
Proof.
  induction cs as [|k cs IH]; intros since Hs Hr; [constructor|]. destruct k as [p| |]; cbn [reported recorded flat_map app] in *.
  - inversion Hr; subst. apply IH; auto.
  - apply Forall_app. split; auto.
  - auto.
Qed.

Lemma total_flat c (ps : list (list call)) : total c (flat_map (reported []) ps) = sumf (fun cs => total c (reported [] cs)) ps.
Proof. induction ps as [|cs ps IH]; [reflexivity|]. cbn [flat_map]. rewrite total_app, sumf_cons, IH. reflexivity. Qed.

Lemma sum_adds_total ps c : In c fixed_counters -> Forall (fun cs => Forall probe_ok (recorded cs)) ps -> total c (flat_map (reported []) ps) < M64 ->
  sumf (fun e => by_how_much (act_in ps e)) (adds ps c) = total c (flat_map (reported []) ps).
Proof.
  intros Hc HP HT. rewrite sum_adds, total_flat in *.
  assert (NN : forall cs, In cs ps -> 0 <= total c (reported [] cs)).
  { intros cs Hcs. apply total_nonneg, reported_ok; [constructor|]. exact (proj1 (Forall_forall _ _) HP cs Hcs). }
  apply sumf_ext. intros cs Hcs. apply acts_sum; auto.
  - exact (proj1 (Forall_forall _ _) HP cs Hcs).
  - apply in_split in Hcs as (p1 & p2 & ->). rewrite sumf_app, sumf_cons in HT.
    assert (0 <= sumf (fun cs => total c (reported [] cs)) p1) by (apply sumf_nonneg; intros; apply NN, in_or_app; now left).
    assert (0 <= sumf (fun cs => total c (reported [] cs)) p2) by (apply sumf_nonneg; intros; apply NN, in_or_app; right; now right). lia.
Qed.

(** Amounts are never negative. *)
Lemma acts_word cs : forall l, (forall d, word (l_ctr l d)) -> forall c d, In (Add c d) (acts l cs) -> 0 <= d.
Proof.
  induction cs as [|k cs IH]; intros l Hl c d H; [contradiction|]. destruct k as [p| |]; cbn [acts] in H.
  - apply (IH (apply_probe l p)) in H; auto. intros e. rewrite apply_probe_ctr by apply Hl. apply word_mod.
  - apply in_app_or in H as [H|H].
    + apply in_map_iff in H as (c' & E & _). injection E as <- <-. apply Hl.
    + apply (IH local_reset) in H; auto. intros e. cbn. unfold word, M64. lia.
  - apply in_app_or in H as [H|H]; [apply in_map_iff in H as (c' & E & _); discriminate|]. eauto.
Qed.
Lemma amount_nonneg ps e : 0 <= by_how_much (act_in ps e).
Proof.
  unfold act_in. destruct (nth_error ps (fst e)) as [cs|]; [|cbn; lia]. destruct (nth_error (acts local_reset cs) (snd e)) as [[c d|]|] eqn:E; cbn; try lia.
  apply nth_error_In in E. apply acts_word in E; auto. intros k. cbn. unfold word, M64. lia.
Qed.

(** ** Prefixes of programs *)
Lemma acts_app a b : forall l, exists l', acts l (a ++ b) = acts l a ++ acts l' b.
Proof.
  induction a as [|k a IH]; intros l; [now exists l|]. destruct k as [p| |]; cbn [acts app].
  - apply IH.
  - destruct (IH local_reset) as [l' E]. exists l'. now rewrite E, app_assoc.
  - destruct (IH l) as [l' E]. exists l'. now rewrite E, app_assoc.
Qed.
Lemma prefix_act lo ps e a : Forall2 prefix lo ps -> act_in lo e = Some a -> act_in ps e = Some a.
Proof.
  intros HF. unfold act_in. destruct e as [t i]. cbn [fst snd]. revert t. induction HF as [|x y lo ps [r ->] HF IH]; intros [|t]; cbn [nth_error]; try discriminate.
  - destruct (acts_app x r local_reset) as [l' ->]. intros H. rewrite nth_error_app1; auto. apply nth_error_Some. congruence.
  - apply IH.
Qed.

Lemma prefix_recorded lo ps : Forall2 prefix lo ps -> Forall (fun cs => Forall probe_ok (recorded cs)) ps -> Forall (fun cs => Forall probe_ok (recorded cs)) lo.
Proof.
  induction 1 as [|x y lo ps [r ->] HF IH]; intros H; inversion H; subst; constructor; auto.
  unfold recorded in *. rewrite flat_map_app in *. now apply Forall_app in H2.
Qed.
Lemma reported_app a b : forall since, exists s', reported since (a ++ b) = reported since a ++ reported s' b.
Proof.
  induction a as [|k a IH]; intros since; [now exists since|]. destruct k as [p| |]; cbn [reported app].
  - apply IH.
  - destruct (IH []) as [s' E]. exists s'. now rewrite E, app_assoc.
  - apply IH.
Qed.
Lemma prefix_total c lo ps : Forall2 prefix lo ps -> Forall (fun cs => Forall probe_ok (recorded cs)) ps ->
  total c (flat_map (reported []) lo) <= total c (flat_map (reported []) ps).
Proof.
  induction 1 as [|x y lo ps [r ->] HF IH]; intros H; [cbn; lia|]. inversion H as [|? ? H1 H2]; subst. cbn [flat_map]. rewrite !total_app. specialize (IH H2).
  assert (total c (reported [] x) <= total c (reported [] (x ++ r))); [|lia].
  assert (K : forall since, Forall probe_ok since -> total c (reported since x) <= total c (reported since (x ++ r))).
  { clear - H1. induction x as [|k x IH]; intros since Hs; cbn [app].
    - cbn [reported]. change (total c []) with 0. apply total_nonneg, reported_ok; auto.
    - destruct k as [p| |]; cbn [reported recorded flat_map app] in *.
      + inversion H1; subst. apply IH; auto.
      + rewrite !total_app. pose proof (IH H1 [] (Forall_nil _)). lia.
      + apply IH; auto. }
  apply K. constructor.
Qed.

(** ** Executions *)
Section Exec.
Context (x : exec) (CO : consistent x).

Lemma amount_eq e : amount x e = by_how_much (act_in (progs x) e).
Proof. unfold amount, act_at, act_in, by_how_much. destruct (nth_error (progs x) (fst e)); auto. Qed.
Lemma act_at_in e : act_at x e = act_in (progs x) e. Proof. reflexivity. Qed.

Lemma fold_value L : forall v, word v -> fold_left (fun v e => add64 v (amount x e)) L v = (v + sumf (amount x) L) mod M64.
Proof.
  induction L as [|a L IH]; intros v Hv; cbn [fold_left].
  - cbn. rewrite Z.add_0_r, Z.mod_small; auto.
  - rewrite IH by (rewrite add64_mod; apply word_mod). rewrite sumf_cons. rewrite add64_mod, Zplus_mod_idemp_l. f_equal. lia.
Qed.
Lemma mo_perm c : Permutation (mo x c) (adds (progs x) c).
Proof. apply NoDup_Permutation; [apply CO|apply NoDup_adds|]. intros e. rewrite (co_all x CO), in_adds. reflexivity. Qed.
Lemma amt_nonneg e : 0 <= amount x e.
Proof. rewrite amount_eq. apply amount_nonneg. Qed.

Lemma value_exact c k : sumf (amount x) (mo x c) < M64 -> value x c k = sumf (amount x) (firstn k (mo x c)).
Proof.
  intros H. unfold value. rewrite fold_value by (unfold word, M64; lia). rewrite Z.mod_small; [lia|].
  pose proof (sumf_nonneg (amount x) (firstn k (mo x c)) (fun e _ => amt_nonneg e)).
  pose proof (sumf_nonneg (amount x) (skipn k (mo x c)) (fun e _ => amt_nonneg e)).
  rewrite <- (firstn_skipn k (mo x c)), sumf_app in H. lia.
Qed.

Lemma mo_sum c : In c fixed_counters -> Forall (fun cs => Forall probe_ok (recorded cs)) (progs x) -> total c (all_reported x) < M64 ->
  sumf (amount x) (mo x c) = total c (all_reported x).
Proof.
  intros. rewrite (sumf_perm _ _ _ (mo_perm c)). rewrite (sumf_ext _ (fun e => by_how_much (act_in (progs x) e))) by (intros; apply amount_eq).
  now apply sum_adds_total.
Qed.

Lemma mono c r s : In c fixed_counters -> Forall (fun cs => Forall probe_ok (recorded cs)) (progs x) -> total c (all_reported x) < M64 ->
  act_at x r = Some (Load c) -> act_at x s = Some (Load c) -> hb x r s -> loaded x r <= loaded x s.
Proof.
  intros Hc HP HT Hr Hs H. pose proof (co_rr x CO c r s H Hr Hs) as L. unfold loaded. rewrite Hr, Hs, !value_exact by (rewrite mo_sum; auto).

  replace (firstn (pos x r) (mo x c)) with (firstn (pos x r) (firstn (pos x s) (mo x c))) by (rewrite firstn_firstn, Nat.min_l; auto).
  rewrite <- (firstn_skipn (pos x r) (firstn (pos x s) (mo x c))) at 2. rewrite sumf_app.
  pose proof (sumf_nonneg (amount x) (skipn (pos x r) (firstn (pos x s) (mo x c))) (fun e _ => amt_nonneg e)). lia.
Qed.

Lemma between c e lo hi : In c fixed_counters -> Forall (fun cs => Forall probe_ok (recorded cs)) (progs x) -> total c (all_reported x) < M64 ->
  act_at x e = Some (Load c) -> Forall2 prefix lo (progs x) -> Forall2 prefix hi (progs x) ->
  (forall w d, act_in lo w = Some (Add c d) -> hb x w e) ->
  (forall w d, act_in hi w = None -> act_at x w = Some (Add c d) -> hb x e w) ->
  total c (flat_map (reported []) lo) <= loaded x e <= total c (flat_map (reported []) hi).
Proof.
  intros Hc HP HT He HL HH Hlo Hhi. unfold loaded. rewrite He, value_exact by (rewrite mo_sum; auto). split.
  - pose proof (prefix_total c lo _ HL HP). rewrite <- sum_adds_total; auto; [|eapply prefix_recorded; eauto|unfold all_reported in HT; lia].
    rewrite (sumf_ext _ (amount x)).
    2:{ intros w Hw. apply in_adds in Hw as (d & E). rewrite amount_eq, E, (prefix_act lo _ w _ HL E). reflexivity. }
    apply sumf_incl; [apply NoDup_adds| |intros; apply amt_nonneg].
    intros w Hw. apply in_adds in Hw as (d & E). pose proof (prefix_act lo _ w _ HL E) as E'.
    assert (Hm : In w (mo x c)) by (apply (co_all x CO); exists d; exact E'). apply In_nth_error in Hm as (i & Hi).
    pose proof (co_wr x CO c w e i (Hlo w d E) Hi He) as Lt.
    rewrite <- (firstn_skipn (pos x e) (mo x c)) in Hi. rewrite nth_error_app1 in Hi; [now apply nth_error_In in Hi|].
    rewrite firstn_length. assert (i < length (mo x c))%nat; [|lia]. apply nth_error_Some.
    rewrite <- (firstn_skipn (pos x e) (mo x c)) at 1. congruence.
  - pose proof (mo_sum c Hc HP HT) as MS. rewrite <- (firstn_skipn (pos x e) (mo x c)), sumf_app in MS.
    pose proof (prefix_total c hi _ HH HP) as PT.
    assert (SH : sumf (amount x) (adds hi c) = total c (flat_map (reported []) hi)).
    { rewrite <- (sum_adds_total hi c); auto; [|eapply prefix_recorded; eauto|unfold all_reported in HT; lia].
      apply sumf_ext. intros w Hw. apply in_adds in Hw as (d & E). rewrite amount_eq, E, (prefix_act hi _ w _ HH E). reflexivity. }
    assert (ND : NoDup (firstn (pos x e) (mo x c))).
    { pose proof (co_nodup x CO c) as N. rewrite <- (firstn_skipn (pos x e) (mo x c)) in N. clear - N. induction (firstn (pos x e) (mo x c)) as [|a l IH]; [constructor|].
      cbn [app] in N. inversion N; subst. constructor; auto. intros Ha. apply H1, in_or_app. now left. }
    rewrite <- SH. apply sumf_incl; [exact ND| |intros; apply amt_nonneg].
    intros w Hw. apply In_nth_error in Hw as (i & Hi).
    assert (Li : (i < pos x e)%nat). { assert (i < length (firstn (pos x e) (mo x c)))%nat by (apply nth_error_Some; congruence). rewrite firstn_length in H. lia. }
    assert (Hm : nth_error (mo x c) i = Some w). { rewrite <- (firstn_skipn (pos x e) (mo x c)), nth_error_app1; auto. apply nth_error_Some. congruence. }
    pose proof (nth_error_In _ _ Hm) as Hin. apply (co_all x CO) in Hin as (d & E).
    apply in_adds. exists d. destruct (act_in hi w) as [a|] eqn:Ea.
    + rewrite <- E. symmetry. exact (prefix_act hi _ w _ HH Ea).
    + pose proof (co_rw x CO c e w i (Hhi w d Ea E) He Hm). lia.
Qed.

(** A call of string() to which every report happened before. *)
Lemma in_string_loads c : In c string_loads -> In c fixed_counters.
Proof. intros H. assert (F : forallb (fun d => existsb (ctr_eqb d) fixed_counters) string_loads = true) by reflexivity.
  apply existsb_ctr. exact (proj1 (forallb_forall _ _) F c H). Qed.

Lemma joined_load c e : In c fixed_counters -> Forall (fun cs => Forall probe_ok (recorded cs)) (progs x) -> total c (all_reported x) < M64 ->
  act_at x e = Some (Load c) -> (forall w d, act_at x w = Some (Add c d) -> hb x w e) -> loaded x e = total c (all_reported x).
Proof.
  intros Hc HP HT He Hw. assert (R : Forall2 prefix (progs x) (progs x)).
  { clear. induction (progs x); constructor; auto. exists []. now rewrite app_nil_r. }
  pose proof (between c e (progs x) (progs x) Hc HP HT He R R Hw) as B.
  assert (B2 : total c (flat_map (reported []) (progs x)) <= loaded x e <= total c (flat_map (reported []) (progs x))).
  { apply B. intros w d N E. unfold act_at in E. unfold act_in in N. congruence. }
  unfold all_reported. lia.
Qed.
End Exec.

Lemma print_load x e k c : starts_print x e -> nth_error string_loads k = Some c -> act_at x (fst e, (snd e + k)%nat) = Some (Load c).
Proof.
  intros (cs1 & cs2 & E1 & E2) Hk. unfold act_at. cbn [fst snd]. rewrite E1. destruct (acts_app cs1 (Print :: cs2) local_reset) as [l' ->].
  rewrite E2, nth_error_app2 by lia. replace (length (acts local_reset cs1) + k - length (acts local_reset cs1))%nat with k by lia.
  cbn [acts]. rewrite nth_error_app1 by (rewrite map_length; apply nth_error_Some; congruence). now apply map_nth_error.
Qed.

Lemma text_joined x e g : starts_print x e -> (forall k c, nth_error string_loads k = Some c -> loaded x (fst e, (snd e + k)%nat) = g c) ->
  text_at x e = printed string_steps (map g string_loads) 0.
Proof.
  intros S H. unfold text_at. f_equal. apply nth_ext with (d := 0) (d' := 0); rewrite !map_length, seq_length; auto.
  intros n Hn. destruct (nth_error string_loads n) as [c|] eqn:E; [|apply nth_error_None in E; lia].
  rewrite (nth_error_nth (map g string_loads) n 0 (map_nth_error g n string_loads E)).
  rewrite <- (H n c E). erewrite nth_error_nth; [reflexivity|]. rewrite (map_nth_error _ n _ (d := n)); [reflexivity|].
  rewrite nth_error_nth' with (d := 0%nat) by (rewrite seq_length; auto). now rewrite seq_nth.
Qed.

Lemma printed_shows g q : forall cs vs count, printed (map JShow cs ++ q) (map g cs ++ vs) count = option_map (app (map (fun c => (LCounter c, g c)) cs)) (printed q vs count).
Proof.
  induction cs as [|c cs IH]; intros vs count; cbn [map app printed].
  - now destruct (printed q vs count).
  - rewrite IH. now destruct (printed q vs count).
Qed.
Lemma printed_dist (g : ctr -> Z) (mk : nat -> ctr) (lb : Z -> label) (d : ctr) q : g d <> 0 -> forall bs i vs count,
  exists l count', percentages g mk (length bs) i count (g d) = Ok l /\ 
  printed (flat_map (fun ib => [JCount (mk (fst ib)); JPercent (lb (snd ib)) d]) (combine (seq i (length bs)) bs) ++ q)
          (flat_map (fun k => [g (mk k); g d]) (seq i (length bs)) ++ vs) count
  = option_map (app (combine (map lb bs) l)) (printed q vs count').
Proof.
  intros Hd. induction bs as [|b bs IH]; intros i vs count; cbn [length seq combine flat_map app printed percentages map fst snd].
  - exists [], count. split; auto. now destruct (printed q vs count).
  - destruct (IH (S i) vs (add64 count (g (mk i)))) as (l & count' & E1 & E2). destruct (Z.eqb_spec (g d) 0) as [|_]; [contradiction|].
    rewrite E1, E2. exists (mul64 (add64 count (g (mk i))) 100 / g d :: l), count'. split; [reflexivity|].
    cbn [combine]. now destruct (printed q vs count').
Qed.

Lemma printed_clear q vs n : printed (JClear :: q) vs n = printed q vs 0. Proof. reflexivity. Qed.
Lemma printed_last n : printed [JShowAll] [] n = Some []. Proof. reflexivity. Qed.
Definition shown_first : list ctr := [CInit; CResets; CDestruct; CAlloc; CNewblock; CSpaceAllocated; CSpaceUsed; CSpaceWasted; CSpaceResettled].
Lemma printed_string g sz lf : global_string g = Ok (sz, lf) ->
  printed string_steps (map g string_loads) 0 =
  Some (map (fun c => (LCounter c, g c)) shown_first ++ combine (map LSize alloc_size_bucket) sz ++ combine (map LLife destruct_lifetime_bucket) lf).
Proof.
  intros HG. unfold global_string in HG.
  assert (A0 : g CAlloc <> 0). { intros Z0. cbn [percentages] in HG. rewrite Z0 in HG. discriminate. }
  assert (D0 : g CDestruct <> 0).
  { intros Z0. destruct (percentages g CBucket 8 0 0 (g CAlloc)); cbn [bind] in HG; try discriminate. cbn [percentages] in HG. rewrite Z0 in HG. discriminate. }
  destruct (printed_dist g CLife LLife CDestruct [JShowAll] D0 destruct_lifetime_bucket 0 [] 0) as (l2 & n2 & E2 & P2).
  destruct (printed_dist g CBucket LSize CAlloc (JClear :: flat_map (fun ib => [JCount (CLife (fst ib)); JPercent (LLife (snd ib)) CDestruct]) (combine (seq 0 (length destruct_lifetime_bucket)) destruct_lifetime_bucket) ++ [JShowAll])
     A0 alloc_size_bucket 0 (flat_map (fun k => [g (CLife k); g CDestruct]) (seq 0 (length destruct_lifetime_bucket)) ++ []) 0) as (l1 & n1 & E1 & P1).
  change (length alloc_size_bucket) with 8%nat in *. change (length destruct_lifetime_bucket) with 8%nat in *.
  rewrite E1 in HG. cbn [bind] in HG. rewrite E2 in HG. cbn [bind] in HG. injection HG as <- <-.
  pose proof (printed_shows g (JClear :: flat_map (fun ib => [JCount (CBucket (fst ib)); JPercent (LSize (snd ib)) CAlloc]) (combine (seq 0 8) alloc_size_bucket) ++
     JClear :: flat_map (fun ib => [JCount (CLife (fst ib)); JPercent (LLife (snd ib)) CDestruct]) (combine (seq 0 8) destruct_lifetime_bucket) ++ [JShowAll])
     shown_first (flat_map (fun k => [g (CBucket k); g CAlloc]) (seq 0 8) ++ flat_map (fun k => [g (CLife k); g CDestruct]) (seq 0 8) ++ []) 0) as P0.
  rewrite printed_clear in P0, P1. rewrite P1 in P0. rewrite P2, printed_last in P0. cbn [option_map] in P0. rewrite !app_nil_r in P0.
  rewrite <- P0. clear. f_equal.
Qed.
