(** Property C82: the global metrics under the memory model of C++. *)
Require Import ZArith List Bool Lia Permutation Sorting.Sorted.
From Verif Require Import Base BaseProofs ArenaSpec MetricsSpec MetricsModel MetricsStatements MetricsProofs
  MetricsGlobalModel MetricsGlobalStatements MetricsGlobalProofs MetricsRelaxModel MetricsRelaxSpec MetricsRelaxProofs.
Import ListNotations.
Open Scope Z_scope.

(** C82: a load of a counter sees at least what has been reported in the parts
    [lo] of the threads' programs that happened before it, and at most what is
    reported in the parts [hi] outside of which everything happens after it. *)
Theorem C82_between : forall x c e lo hi, consistent x -> fixed c -> Forall probe_ok (all_recorded x) -> total c (all_reported x) < M64 ->
  act_at x e = Some (Load c) -> Forall2 prefix lo (progs x) -> Forall2 prefix hi (progs x) ->
  (forall w d, act_in lo w = Some (Add c d) -> hb x w e) ->
  (forall w d, act_in hi w = None -> act_at x w = Some (Add c d) -> hb x e w) ->
  total c (flat_map (reported []) lo) <= loaded x e <= total c (flat_map (reported []) hi).
Proof.
  intros x c e lo hi CO F HP. apply between; auto.
  - apply in_fixed. destruct c; cbn in F; auto; contradiction.
  - apply Forall_forall. intros cs Hcs. apply Forall_forall. intros p Hp. apply (proj1 (Forall_forall _ _) HP). unfold all_recorded. apply in_flat_map. eauto.
Qed.

(** C82: a later load sees no less. *)
Theorem C82_monotone : forall x c r s, consistent x -> fixed c -> Forall probe_ok (all_recorded x) -> total c (all_reported x) < M64 ->
  act_at x r = Some (Load c) -> act_at x s = Some (Load c) -> hb x r s -> loaded x r <= loaded x s.
Proof.
  intros x c r s CO F HP HT. apply mono; auto.
  - apply in_fixed. destruct c; cbn in F; auto; contradiction.
  - apply Forall_forall. intros cs Hcs. apply Forall_forall. intros p Hp. apply (proj1 (Forall_forall _ _) HP). unfold all_recorded. apply in_flat_map. eauto.
Qed.

(** C82: string() called after the reporting threads have been joined shows every
    counter exactly, and the shares of sizes and lifetimes up to each bound. *)
Theorem C82_joined : forall x e, consistent x -> Forall probe_ok (all_recorded x) -> let ps := all_reported x in
  (forall c, fixed c -> total c ps < M64) -> Z.of_nat (length ps) * 100 < M64 -> sizes_of ps <> [] -> lifetimes_of ps <> [] ->
  starts_print x e -> (forall w c d, act_at x w = Some (Add c d) -> hb x w e) ->
  text_at x e = Some (map (fun c => (LCounter c, total c ps)) [CInit; CResets; CDestruct; CAlloc; CNewblock; CSpaceAllocated; CSpaceUsed; CSpaceWasted; CSpaceResettled]
    ++ map (fun b => (LSize b, countif (fun n => n <=? b) (sizes_of ps) * 100 / Z.of_nat (length (sizes_of ps)))) [64; 128; 256; 512; 1024; 2048; 4096; 1048576]
    ++ map (fun b => (LLife b, countif (fun n => n <=? b) (lifetimes_of ps) * 100 / Z.of_nat (length (lifetimes_of ps)))) [1; 5; 10; 50; 100; 200; 500; 1000]).
Proof.
  intros x e CO HP ps HT HL Hs Hl SP HB.
  rewrite (text_joined x e (fun c => total c ps) SP).
  - rewrite (printed_string (fun c => total c ps) (shares size_bounds (sizes_of ps)) (shares life_bounds (lifetimes_of ps))).
    + reflexivity.
    + apply string_ok; auto.
  - intros k c Hk. pose proof (print_load x e k c SP Hk) as Hload. pose proof (in_string_loads c (nth_error_In _ _ Hk)) as Hf.
    apply joined_load; auto.
    + apply Forall_forall. intros cs Hcs. apply Forall_forall. intros p Hp. apply (proj1 (Forall_forall _ _) HP). unfold all_recorded. apply in_flat_map. eauto.
    + apply HT. apply in_fixed in Hf. destruct c; cbn; auto.
    + intros w d Hw. destruct k as [|k]; [rewrite Nat.add_0_r; destruct e; exact (HB _ _ _ Hw)|].
      apply (hb_trans x CO w e); [exact (HB _ _ _ Hw)|]. destruct e as [t i]. cbn [fst snd] in *. apply (hb_po x CO); [lia| |congruence].
      pose proof (print_load x (t, i) 0%nat CInit SP eq_refl) as H0. cbn [fst snd] in H0. rewrite Nat.add_0_r in H0. congruence.
Qed.

(** ** Executions to look at
    Thread 0 reports, thread 1 prints; [p c]: how much of [c] thread 1 sees;
    [j]: thread 0 has been joined. *)
Definition two (r : list call) (p : ctr -> nat) (j : bool) : exec :=
  {| progs := [r; [Print]]; mo := adds [r; [Print]];
     pos := fun e => match act_in [r; [Print]] e with Some (Load c) => p c | _ => 0%nat end;
     hb := fun a b => (fst a = fst b /\ (snd a < snd b)%nat) \/ (j = true /\ fst a = 0%nat /\ fst b = 1%nat) |}.

Definition lex (a b : eid) : Prop := (fst a < fst b)%nat \/ fst a = fst b /\ (snd a < snd b)%nat.
Lemma sorted_app {T} (R : T -> T -> Prop) l m : StronglySorted R l -> StronglySorted R m -> (forall a b, In a l -> In b m -> R a b) -> StronglySorted R (l ++ m).
Proof.
  induction 1 as [|a l HS IH HF]; intros Hm H; [exact Hm|]. cbn [app]. constructor.
  - apply IH; auto. intros; apply H; auto. now right.
  - apply Forall_app. split; auto. apply Forall_forall. intros b Hb. apply H; auto. now left.
Qed.
Lemma sorted_seq_pair t n : forall i, StronglySorted lex (map (pair t) (seq i n)).
Proof.
  induction n as [|n IH]; intros i; cbn [seq map]; constructor; auto. apply Forall_forall. intros b Hb. apply in_map_iff in Hb as (k & <- & Hk).
  apply in_seq in Hk. right. cbn. split; auto. lia.
Qed.
Lemma sorted_events ps : StronglySorted lex (events ps).
Proof.
  unfold events. generalize 0%nat at 2. generalize (length ps). intros n. induction n as [|n IH]; intros i; cbn [seq flat_map]; [constructor|].
  apply sorted_app; auto using sorted_seq_pair. intros a b Ha Hb. apply in_map_iff in Ha as (k & <- & _). apply in_flat_map in Hb as (u & Hu & Hb).
  apply in_map_iff in Hb as (m & <- & _). apply in_seq in Hu. left. cbn. lia.
Qed.
Lemma sorted_filter {T} (R : T -> T -> Prop) f l : StronglySorted R l -> StronglySorted R (filter f l).
Proof.
  induction 1 as [|a l HS IH HF]; cbn [filter]; [constructor|]. destruct (f a); auto. constructor; auto.
  apply Forall_forall. intros b Hb. apply filter_In in Hb as [Hb _]. exact (proj1 (Forall_forall _ _) HF b Hb).
Qed.
Lemma sorted_nth {T} (R : T -> T -> Prop) l : StronglySorted R l -> forall i j a b, nth_error l i = Some a -> nth_error l j = Some b -> (i < j)%nat -> R a b.
Proof.
  induction 1 as [|x l HS IH HF]; intros i j a b Hi Hj L; [destruct i; discriminate|]. destruct j; [lia|]. destruct i; cbn [nth_error] in *.
  - injection Hi as <-. apply nth_error_In in Hj. exact (proj1 (Forall_forall _ _) HF b Hj).
  - apply (IH i j); auto. lia.
Qed.

Lemma two_consistent r p j : forallb (fun a => match a with Add _ _ => true | _ => false end) (acts local_reset r) = true ->
  (forall c, (p c <= length (adds [r; [Print]] c))%nat) -> (j = true -> forall c, p c = length (adds [r; [Print]] c)) -> consistent (two r p j).
Proof.
  intros HA Hp Hj.
  assert (T0 : forall i a, act_at (two r p j) (0%nat, i) = Some a -> exists c d, a = Add c d).
  { intros i a H. unfold act_at in H. cbn in H. apply nth_error_In in H. pose proof (proj1 (forallb_forall _ _) HA a H). destruct a; [eauto|discriminate]. }
  assert (T1 : forall i a, act_at (two r p j) (1%nat, i) = Some a -> exists c, a = Load c).
  { intros i a H. unfold act_at in H. cbn [progs two fst snd nth_error] in H. apply nth_error_In in H. cbn [acts] in H. rewrite app_nil_r in H.
    apply in_map_iff in H as (c & <- & _). eauto. }
  assert (T2 : forall t i, act_at (two r p j) (S (S t), i) = None).
  { intros t i. unfold act_at. cbn. destruct t; reflexivity. }
  assert (WL : forall c w, In w (mo (two r p j) c) -> fst w = 0%nat).
  { intros c [t i] H. cbn in H. apply in_adds in H as (d & H). change (act_at (two r p j) (t, i) = Some (Add c d)) in H. destruct t as [|[|t]]; auto.
    - destruct (T1 _ _ H). discriminate.
    - rewrite T2 in H. discriminate. }
  assert (RL : forall c e, act_at (two r p j) e = Some (Load c) -> fst e = 1%nat).
  { intros c [t i] H. destruct t as [|[|t]]; auto.
    - destruct (T0 _ _ H) as (? & ? & ?). discriminate.
    - rewrite T2 in H. discriminate. }
  assert (PO : forall c e, act_at (two r p j) e = Some (Load c) -> pos (two r p j) e = p c).
  { intros c e H. cbn [pos two]. change (act_in [r; [Print]] e) with (act_at (two r p j) e). now rewrite H. }
  constructor.
  - intros c. apply NoDup_adds.
  - intros c e. apply in_adds.
  - intros c e H. rewrite (PO _ _ H). apply Hp.
  - intros t i k L _ _. left. cbn. auto.
  - intros a b c. cbn [hb two]. intros [[E1 L1]|(Hj1 & E1 & E2)] [[E3 L2]|(Hj2 & E3 & E4)]; [left|right|right|]; try (split; [|split]; congruence); [split; [congruence|lia]|congruence].
  - intros a. cbn [hb two]. intros [[_ L]|(_ & E & F)]; [lia|congruence].
  - intros c v w i k H Hv Hw. unfold mo_index in *. destruct (Nat.lt_trichotomy i k) as [|[->|L]]; auto.
    + rewrite Hv in Hw. injection Hw as ->. cbn [hb two] in H. destruct H as [[_ L]|(_ & E & F)]; [lia|congruence].
    + pose proof (sorted_nth lex (adds [r; [Print]] c) (sorted_filter _ _ _ (sorted_events _)) k i w v Hw Hv L) as LX.
      pose proof (WL c v (nth_error_In _ _ Hv)). pose proof (WL c w (nth_error_In _ _ Hw)). cbn [hb two] in H. unfold lex in LX. lia.
  - intros c a b _ Ha Hb. rewrite (PO _ _ Ha), (PO _ _ Hb). lia.
  - intros c a w i H Ha Hw. pose proof (RL _ _ Ha). pose proof (WL c w (nth_error_In _ _ Hw)). cbn [hb two] in H. destruct H as [[E _]|(_ & E & _)]; congruence.
  - intros c w a i H Hw Ha. rewrite (PO _ _ Ha). pose proof (RL _ _ Ha). pose proof (WL c w (nth_error_In _ _ Hw)). cbn [hb two] in H. destruct H as [[E _]|(Ej & _ & _)]; [congruence|].
    rewrite (Hj Ej). apply nth_error_Some. unfold mo_index in Hw. cbn [mo two] in Hw. congruence.
Qed.

Definition busy : list call := [Record_ PInit; Record_ (PAlloc 10 1); Record_ (PDestroy 64 3 7); Report; Record_ (PAlloc 20 1); Report].
(** What is seen of a counter outside [fixed_counters] does not matter. *)
Definition seen (r : list call) (n : nat) (c : ctr) : nat := Nat.min n (length (adds [r; [Print]] c)).

(** C82: shown percentages may exceed 100 without reset() (arm, and any compiler
    that moves the relaxed additions): string() sees both additions to the first
    bucket, and one of those to alloc_count, though this is added to first and
    loaded last.  The comment "count < alloc_count" (metrics.hpp:150) is wrong. *)
Theorem C82_percent_refuted : exists x e out l v, consistent x /\ starts_print x e /\ text_at x e = Some out /\
  In (l, v) out /\ (forall c, l <> LCounter c) /\ v = 200.
Proof.
  exists (two busy (fun c => seen busy (if ctr_eqb c CAlloc then 1 else 2) c) false), (1%nat, 0%nat).
  eexists. exists (LSize 64), 200. split; [|split; [|split; [vm_compute; reflexivity|]]].
  - apply two_consistent; [vm_compute; reflexivity|intros; apply Nat.le_min_r|discriminate].
  - exists [], []. split; reflexivity.
  - split; [|split; [discriminate|reflexivity]]. vm_compute. tauto.
Qed.

(** C82: or string() divides by zero although a bucket it has seen is not empty. *)
Theorem C82_fault_refuted : exists x, consistent x /\ starts_print x (1%nat, 0%nat) /\ act_at x (1%nat, 9%nat) = Some (Load (CBucket 0)) /\
  loaded x (1%nat, 9%nat) = 2 /\ text_at x (1%nat, 0%nat) = None.
Proof.
  exists (two busy (fun c => seen busy (if ctr_eqb c CAlloc then 0 else 2) c) false).
  split; [|split; [exists [], []; split; reflexivity|vm_compute; auto]].
  apply two_consistent; [vm_compute; reflexivity|intros; apply Nat.le_min_r|discriminate].
Qed.

(** Two executions that meet the hypotheses of C82_between and
    C82_monotone (one report of two seen), and of C82_joined. *)
Example C82_between_ex : let x := two busy (fun c => seen busy 1 c) false in
  consistent x /\ Forall probe_ok (all_recorded x) /\ total CAlloc (all_reported x) = 2 /\ act_at x (1%nat, 3%nat) = Some (Load CAlloc) /\
  act_at x (1%nat, 10%nat) = Some (Load CAlloc) /\ hb x (1%nat, 3%nat) (1%nat, 10%nat) /\ loaded x (1%nat, 3%nat) = 1 /\
  Forall2 prefix [[]; [Print]] (progs x) /\ Forall2 prefix [busy; [Print]] (progs x).
Proof.
  intros x. split; [apply two_consistent; [vm_compute; reflexivity|intros; apply Nat.le_min_r|discriminate]|].
  split; [repeat constructor; cbn; lia|]. split; [reflexivity|]. split; [reflexivity|]. split; [reflexivity|].
  split; [left; cbn; split; [reflexivity|lia]|]. split; [vm_compute; reflexivity|].
  split; repeat constructor; cbn [progs two x]; [exists busy|exists []|exists []|exists []]; reflexivity.
Qed.
Example C82_joined_ex : let x := two busy (fun c => length (adds [busy; [Print]] c)) true in
  consistent x /\ Forall probe_ok (all_recorded x) /\ sizes_of (all_reported x) = [10; 20] /\ lifetimes_of (all_reported x) = [7] /\
  starts_print x (1%nat, 0%nat) /\ (forall w c d, act_at x w = Some (Add c d) -> hb x w (1%nat, 0%nat)) /\
  option_map (fun o => (hd_error (skipn 3 o), hd_error (skipn 9 o), hd_error (skipn 18 o))) (text_at x (1%nat, 0%nat)) = Some (Some (LCounter CAlloc, 2), Some (LSize 64, 100), Some (LLife 5, 0)).
Proof.
  intros x. split; [apply two_consistent; [vm_compute; reflexivity|intros; lia|auto]|].
  split; [repeat constructor; cbn; lia|]. split; [reflexivity|]. split; [reflexivity|]. split; [exists [], []; split; reflexivity|].
  split; [|vm_compute; reflexivity].
  intros [t i] c d H. right. destruct t as [|t]; [auto|]. exfalso. unfold act_at in H. destruct t as [|t]; cbn [progs two x fst snd nth_error] in H.
  - apply nth_error_In in H. cbn [acts] in H. rewrite app_nil_r in H. apply in_map_iff in H as (c' & E & _). discriminate.
  - destruct t; discriminate.
Qed.

Print Assumptions C82_between.
Print Assumptions C82_monotone.
Print Assumptions C82_joined.
Print Assumptions C82_percent_refuted.
Print Assumptions C82_fault_refuted.
