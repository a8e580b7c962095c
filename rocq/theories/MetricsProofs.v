Require Import ZArith List Bool Lia.
From Verif Require Import Base BaseProofs ArenaSpec ArenaModel ArenaStatements MetricsSpec MetricsModel MetricsStatements.
Import ListNotations.
Open Scope Z_scope.

Lemma ctr_eqb_spec a b : reflect (a = b) (ctr_eqb a b).
Proof.
  destruct a, b; simpl; try (constructor; congruence).
  - destruct (Nat.eqb_spec k k0); constructor; congruence.
  - destruct (Nat.eqb_spec k k0); constructor; congruence.
  - destruct (Z.eqb_spec key key0); constructor; congruence.
Qed.
Lemma ctr_eqb_refl a : ctr_eqb a a = true.
Proof. destruct (ctr_eqb_spec a a); congruence. Qed.

Lemma bump_ctr l c n d : l_ctr (bump l c n) d = if ctr_eqb d c then add64 (l_ctr l c) n else l_ctr l d.
Proof. reflexivity. Qed.

Definition plus (l l' : local) (c : ctr) (n : Z) : Prop := l_ctr l' c = (l_ctr l c + n) mod M64.

Lemma add64_mod a b : add64 a b = (a + b) mod M64. Proof. reflexivity. Qed.

Lemma mod_self l c : word (l_ctr l c) -> (l_ctr l c + 0) mod M64 = l_ctr l c.
Proof. intros [? ?]. rewrite Z.add_0_r. apply Z.mod_small; lia. Qed.

(** Bucket loop: bucket [i+k] of [mk] gains one iff [x] falls in the [k]-th interval. *)
Lemma increase_bucket_other mk bounds : forall i x l c, (forall j, ctr_eqb c (mk j) = false) ->
  l_ctr (increase_bucket mk bounds i x l) c = l_ctr l c.
Proof.
  induction bounds as [|b r IH]; intros i x l c H; simpl; auto.
  destruct (x <=? b); auto. rewrite bump_ctr, H. reflexivity.
Qed.

Lemma inc_size l n c : word (l_ctr l c) ->
  l_ctr (increase_alloc_size_counter l n) c =
  (l_ctr l c + match c with CBucket k => if in_interval size_bounds k n then 1 else 0 | _ => 0 end) mod M64.
Proof.
  intros Hw. unfold increase_alloc_size_counter.
  destruct c; try (rewrite increase_bucket_other by reflexivity; now rewrite mod_self).
  unfold alloc_size_bucket. change (Z.shiftl 1 20) with 1048576. cbn [increase_bucket].
  do 8 (destruct k as [|k]; [
    unfold in_interval, size_bounds; cbn [nth_error];
    repeat match goal with |- context [n <=? ?b] => destruct (Z.leb_spec n b) end;
    repeat match goal with |- context [?b <? n] => destruct (Z.ltb_spec b n) end; cbn [andb]; try lia;
    rewrite ?bump_ctr; cbn [ctr_eqb Nat.eqb]; rewrite ?mod_self by assumption; reflexivity|]).
  assert (E : in_interval size_bounds (S (S (S (S (S (S (S (S k)))))))) n = false).
  { unfold in_interval, size_bounds. cbn [nth_error]. destruct k; reflexivity. }
  rewrite E, mod_self by assumption.
  repeat match goal with |- context [n <=? ?b] => destruct (Z.leb_spec n b) end; rewrite ?bump_ctr; reflexivity.
Qed.

Lemma inc_life l n c : word (l_ctr l c) ->
  l_ctr (increase_destruct_lifetime_counter l n) c =
  (l_ctr l c + match c with CLife k => if in_interval life_bounds k n then 1 else 0 | _ => 0 end) mod M64.
Proof.
  intros Hw. unfold increase_destruct_lifetime_counter.
  destruct c; try (rewrite increase_bucket_other by reflexivity; now rewrite mod_self).
  unfold destruct_lifetime_bucket. cbn [increase_bucket].
  do 8 (destruct k as [|k]; [
    unfold in_interval, life_bounds; cbn [nth_error];
    repeat match goal with |- context [n <=? ?b] => destruct (Z.leb_spec n b) end;
    repeat match goal with |- context [?b <? n] => destruct (Z.ltb_spec b n) end; cbn [andb]; try lia;
    rewrite ?bump_ctr; cbn [ctr_eqb Nat.eqb]; rewrite ?mod_self by assumption; reflexivity|]).
  assert (E : in_interval life_bounds (S (S (S (S (S (S (S (S k)))))))) n = false).
  { unfold in_interval, life_bounds. cbn [nth_error]. destruct k; reflexivity. }
  rewrite E, mod_self by assumption.
  repeat match goal with |- context [n <=? ?b] => destruct (Z.leb_spec n b) end; rewrite ?bump_ctr; reflexivity.
Qed.

Lemma inc_loc l key n c : word (l_ctr l c) ->
  l_ctr (increase_arena_alloc_counter l key n) c =
  (l_ctr l c + match c with CLoc k => if key =? k then n else 0 | _ => 0 end) mod M64.
Proof.
  intros Hw. unfold increase_arena_alloc_counter. rewrite bump_ctr. cbn [l_ctr].
  destruct c; cbn [ctr_eqb]; try (now rewrite mod_self).
  rewrite Z.eqb_sym. destruct (Z.eqb_spec key key0) as [->|]; [reflexivity|now rewrite mod_self].
Qed.

Lemma word_mod x : word (x mod M64).
Proof. apply Z.mod_pos_bound. unfold M64. lia. Qed.

Lemma bump_plus l d n c : word (l_ctr l c) ->
  l_ctr (bump l d n) c = (l_ctr l c + if ctr_eqb c d then n else 0) mod M64.
Proof.
  intros Hw. rewrite bump_ctr. destruct (ctr_eqb_spec c d) as [->|]; [reflexivity|now rewrite mod_self].
Qed.

Lemma apply_probe_ctr l p c : word (l_ctr l c) ->
  l_ctr (apply_probe l p) c = (l_ctr l c + contribution c p) mod M64.
Proof.
  intros Hw. pose proof M64_pos.
  destruct p; cbn [apply_probe]; unfold on_init, on_allocation, on_newblock, on_reset, on_destruction.
  - rewrite bump_plus by auto. destruct c; reflexivity.
  - assert (W1 : word (l_ctr (bump l CAlloc 1) c)) by (rewrite bump_plus by auto; apply word_mod).
    assert (W2 : word (l_ctr (bump (bump l CAlloc 1) CSpaceAllocated size) c)) by (rewrite bump_plus by auto; apply word_mod).
    rewrite inc_loc by (rewrite inc_size by auto; apply word_mod).
    rewrite inc_size by auto. rewrite bump_plus by auto. rewrite bump_plus by auto.
    repeat (rewrite Zplus_mod_idemp_l || rewrite <- Z.add_assoc). f_equal. f_equal.
    destruct c; cbn [ctr_eqb contribution]; rewrite ?Z.add_0_l, ?Z.add_0_r; reflexivity.
  - rewrite bump_plus by auto. destruct c; reflexivity.
  - assert (W1 : word (l_ctr (bump l CResets 1) c)) by (rewrite bump_plus by auto; apply word_mod).
    assert (W2 : word (l_ctr (bump (bump l CResets 1) CSpaceResettled used) c)) by (rewrite bump_plus by auto; apply word_mod).
    rewrite !bump_plus by auto. repeat (rewrite Zplus_mod_idemp_l || rewrite <- Z.add_assoc). f_equal. f_equal.
    destruct c; cbn [ctr_eqb contribution]; rewrite ?Z.add_0_l, ?Z.add_0_r; reflexivity.
  - assert (W1 : word (l_ctr (bump l CDestruct 1) c)) by (rewrite bump_plus by auto; apply word_mod).
    assert (W2 : word (l_ctr (bump (bump l CDestruct 1) CSpaceUsed used) c)) by (rewrite bump_plus by auto; apply word_mod).
    rewrite inc_life by (rewrite bump_plus by auto; apply word_mod).
    rewrite !bump_plus by auto. repeat (rewrite Zplus_mod_idemp_l || rewrite <- Z.add_assoc). f_equal. f_equal.
    destruct c; cbn [ctr_eqb contribution]; rewrite ?Z.add_0_l, ?Z.add_0_r; reflexivity.
Qed.

(** A single thread: counters are the totals modulo 2^64. *)
Lemma local_total ps c : l_ctr (fold_right (fun p l => apply_probe l p) local_reset ps) c = total c ps mod M64.
Proof.
  induction ps as [|p ps IH]; simpl.
  - reflexivity.
  - rewrite apply_probe_ctr by (rewrite IH; apply word_mod). rewrite IH, Zplus_mod_idemp_l. f_equal. lia.
Qed.

Lemma contribution_nonneg c p : probe_ok p -> 0 <= contribution c p.
Proof.
  destruct c, p; simpl; try lia; intros.
  - destruct (in_interval _ _ _); lia.
  - destruct (in_interval _ _ _); lia.
  - destruct (_ =? _); lia.
Qed.

(** Buckets partition the sizes up to the largest bound. *)
Lemma countif_cons {T} (f : T -> bool) x l : countif f (x :: l) = (if f x then 1 else 0) + countif f l.
Proof. unfold countif. cbn [filter]. destruct (f x); cbn [length]; lia. Qed.

Lemma total_cons c p ps : total c (p :: ps) = contribution c p + total c ps. Proof. reflexivity. Qed.
Lemma sizes_of_cons p ps : sizes_of (p :: ps) = (match p with PAlloc n _ => [n] | _ => [] end) ++ sizes_of ps. Proof. reflexivity. Qed.
Lemma lifetimes_of_cons p ps : lifetimes_of (p :: ps) = (match p with PDestroy _ _ t => [t] | _ => [] end) ++ lifetimes_of ps. Proof. reflexivity. Qed.
Lemma total_bucket ps k : total (CBucket k) ps = countif (in_interval size_bounds k) (sizes_of ps).
Proof.
  induction ps as [|p ps IH]; [reflexivity|]. rewrite total_cons, IH, sizes_of_cons.
  destruct p; cbn [contribution app]; rewrite ?countif_cons; reflexivity.
Qed.
Lemma total_life ps k : total (CLife k) ps = countif (in_interval life_bounds k) (lifetimes_of ps).
Proof.
  induction ps as [|p ps IH]; [reflexivity|]. rewrite total_cons, IH, lifetimes_of_cons.
  destruct p; cbn [contribution app]; rewrite ?countif_cons; reflexivity.
Qed.

Lemma partition_size l :
  fold_right (fun k s => countif (in_interval size_bounds k) l + s) 0 (seq 0 8) = countif (fun n => n <=? 1048576) l.
Proof.
  induction l as [|n l IH]; [reflexivity|]. rewrite countif_cons, <- IH. cbn [seq fold_right]. rewrite !countif_cons.
  unfold in_interval, size_bounds. cbn [nth_error].
  assert (C : n <= 64 \/ 64 < n <= 128 \/ 128 < n <= 256 \/ 256 < n <= 512 \/ 512 < n <= 1024 \/ 1024 < n <= 2048 \/ 2048 < n <= 4096 \/ 4096 < n <= 1048576 \/ 1048576 < n) by lia.
  repeat destruct C as [C|C];
  repeat match goal with
         | |- context [n <=? ?b] => first [rewrite (proj2 (Z.leb_le n b)) by lia | rewrite (proj2 (Z.leb_gt n b)) by lia]
         | |- context [?b <? n] => first [rewrite (proj2 (Z.ltb_lt b n)) by lia | rewrite (proj2 (Z.ltb_ge b n)) by lia]
         end; cbn [andb]; lia.
Qed.
Lemma partition_life l :
  fold_right (fun k s => countif (in_interval life_bounds k) l + s) 0 (seq 0 8) = countif (fun n => n <=? 1000) l.
Proof.
  induction l as [|n l IH]; [reflexivity|]. rewrite countif_cons, <- IH. cbn [seq fold_right]. rewrite !countif_cons.
  unfold in_interval, life_bounds. cbn [nth_error].
  assert (C : n <= 1 \/ 1 < n <= 5 \/ 5 < n <= 10 \/ 10 < n <= 50 \/ 50 < n <= 100 \/ 100 < n <= 200 \/ 200 < n <= 500 \/ 500 < n <= 1000 \/ 1000 < n) by lia.
  repeat destruct C as [C|C];
  repeat match goal with
         | |- context [n <=? ?b] => first [rewrite (proj2 (Z.leb_le n b)) by lia | rewrite (proj2 (Z.leb_gt n b)) by lia]
         | |- context [?b <? n] => first [rewrite (proj2 (Z.ltb_lt b n)) by lia | rewrite (proj2 (Z.ltb_ge b n)) by lia]
         end; cbn [andb]; lia.
Qed.

(** * Threads *)
Record twf (x : thread) : Prop := {
  W_nodup : NoDup (l_keys (t_local x));
  W_zero : forall c, ~ In c (report_order (t_local x)) -> l_ctr (t_local x) c = 0;
  W_word : forall c, word (l_ctr (t_local x) c);
  W_todo : forall q, t_todo x = Some q -> NoDup q }.

Lemma twf_idle : twf idle_thread.
Proof.
  split; simpl; intros; auto. - constructor. - unfold word, M64; lia. - discriminate.
Qed.

Lemma in_fixed c : In c fixed_counters <->
  match c with CBucket k | CLife k => (k < 8)%nat | CLoc _ => False | _ => True end.
Proof.
  split.
  - intros H. destruct c; auto.
    + unfold fixed_counters in H. rewrite !in_app_iff, !in_map_iff in H.
      destruct H as [H|[(j & E & H)|(j & E & H)]]; [simpl in H; intuition discriminate| |discriminate].
      inversion E; subst. apply in_seq in H. lia.
    + unfold fixed_counters in H. rewrite !in_app_iff, !in_map_iff in H.
      destruct H as [H|[(j & E & H)|(j & E & H)]]; [simpl in H; intuition discriminate|discriminate|].
      inversion E; subst. apply in_seq in H. lia.
    + unfold fixed_counters in H. rewrite !in_app_iff, !in_map_iff in H.
      destruct H as [H|[(j & E & H)|(j & E & H)]]; [simpl in H; intuition discriminate|discriminate|discriminate].
  - intros H. unfold fixed_counters. rewrite !in_app_iff, !in_map_iff. destruct c; try (left; simpl; tauto).
    + right; left. exists k. split; auto. apply in_seq. lia.
    + right; right. exists k. split; auto. apply in_seq. lia.
Qed.

Lemma in_report c l : In c (report_order l) <-> In c fixed_counters \/ exists k, c = CLoc k /\ In k (l_keys l).
Proof.
  unfold report_order. rewrite in_app_iff, in_map_iff. firstorder congruence.
Qed.

Lemma NoDup_app_intro {T} (a b : list T) : NoDup a -> NoDup b -> (forall x, In x a -> ~ In x b) -> NoDup (a ++ b).
Proof.
  induction 1 as [|x a Hx Ha IH]; simpl; intros Hb H; auto. constructor.
  - rewrite in_app_iff. intros [?|?]; [auto|]. apply (H x); auto.
  - apply IH; auto.
Qed.

Lemma NoDup_map_inj {T U} (f : T -> U) l : (forall x y, f x = f y -> x = y) -> NoDup l -> NoDup (map f l).
Proof.
  intros Hf. induction 1 as [|x l Hx Hl IH]; simpl; constructor; auto.
  rewrite in_map_iff. intros (y & E & Hy). apply Hf in E. now subst.
Qed.

Lemma NoDup_fixed : NoDup fixed_counters.
Proof.
  unfold fixed_counters. apply NoDup_app_intro.
  - repeat (constructor; [simpl; intuition discriminate|]). constructor.
  - apply NoDup_app_intro.
    + apply NoDup_map_inj; [congruence|apply seq_NoDup].
    + apply NoDup_map_inj; [congruence|apply seq_NoDup].
    + intros x Hx Hy. apply in_map_iff in Hx as (j & <- & _), Hy as (k & E & _). discriminate.
  - intros x Hx Hy. rewrite in_app_iff, !in_map_iff in Hy.
    destruct Hy as [(j & <- & _)|(j & <- & _)]; simpl in Hx; intuition discriminate.
Qed.

Lemma NoDup_report l : NoDup (l_keys l) -> NoDup (report_order l).
Proof.
  intros H. unfold report_order. apply NoDup_app_intro.
  - apply NoDup_fixed.
  - apply NoDup_map_inj; [congruence|auto].
  - intros x Hx Hy. apply in_map_iff in Hy as (k & <- & _). apply in_fixed in Hx. exact Hx.
Qed.

Lemma probe_keys l p : NoDup (l_keys l) ->
  NoDup (l_keys (apply_probe l p)) /\
  (forall k, In k (l_keys (apply_probe l p)) <-> In k (l_keys l) \/ (exists n, p = PAlloc n k)).
Proof.
  assert (KB : forall mk bs i x l, l_keys (increase_bucket mk bs i x l) = l_keys l).
  { intros mk bs. induction bs as [|b r IH]; intros i x l0; simpl; auto. destruct (x <=? b); auto. }
  intros H. destruct p; cbn [apply_probe]; unfold on_init, on_allocation, on_newblock, on_reset, on_destruction,
    increase_alloc_size_counter, increase_destruct_lifetime_counter; rewrite ?KB; cbn [l_keys bump].
  1, 3, 4, 5: split; [auto|intros k; split; [auto|intros [?|(n & ?)]; [auto|discriminate]]].
  unfold increase_arena_alloc_counter. cbn [bump l_keys]. rewrite !KB. cbn [l_keys bump].
  destruct (existsb (Z.eqb loc) (l_keys l)) eqn:E.
  - apply existsb_exists in E as (y & Hy & Ey). apply Z.eqb_eq in Ey. subst y.
    split; auto. intros k. split; [auto|]. intros [?|(n & En)]; [auto|]. inversion En; subst. auto.
  - assert (N : ~ In loc (l_keys l)).
    { intros Hin. assert (existsb (Z.eqb loc) (l_keys l) = true); [|congruence].
      apply existsb_exists. exists loc. split; auto. apply Z.eqb_refl. }
    split; [constructor; auto|]. intros k. simpl. split.
    + intros [->|?]; eauto.
    + intros [?|(n & En)]; auto. inversion En; subst; auto.
Qed.

Lemma twf_probe x p : twf x -> t_todo x = None ->
  twf {| t_local := apply_probe (t_local x) p; t_todo := None; t_inside := t_inside x |}.
Proof.
  intros [W1 W2 W3 W4] Ht. destruct (probe_keys _ p W1) as [K1 K2]. split; cbn [t_local t_todo]; auto.
  - intros c Hc. rewrite apply_probe_ctr by auto.
    assert (Hc' : ~ In c (report_order (t_local x))).
    { intros Hin. apply Hc. rewrite in_report in *. destruct Hin as [?|(k & -> & Hk)]; [auto|].
      right. exists k. split; auto. apply K2. auto. }
    rewrite W2 by auto. replace (contribution c p) with 0; [reflexivity|].
    rewrite in_report in Hc. assert (NF : ~ In c fixed_counters) by tauto. rewrite in_fixed in NF.
    destruct c; try (exfalso; apply NF; exact I).
    + assert (8 <= k)%nat by lia. destruct p; cbn [contribution]; auto.
      do 8 (destruct k as [|k]; [lia|]). unfold in_interval, size_bounds. cbn [nth_error]. destruct k; reflexivity.
    + assert (8 <= k)%nat by lia. destruct p; cbn [contribution]; auto.
      do 8 (destruct k as [|k]; [lia|]). unfold in_interval, life_bounds. cbn [nth_error]. destruct k; reflexivity.
    + destruct p; cbn [contribution]; auto. destruct (Z.eqb_spec loc key) as [->|]; auto.
      exfalso. apply Hc. right. exists key. split; auto. apply K2. eauto.
  - intros c. rewrite apply_probe_ctr by auto. apply word_mod.
  - discriminate.
Qed.

Definition share (c : ctr) (x : thread) (L : Z) : Prop := 0 <= L /\ unreported c x = L mod M64.
Definition conserved (s : mstate) (T : Z) (c : ctr) : Prop :=
  exists G Ls, 0 <= G /\ g_ctr s c = G mod M64 /\ Forall2 (share c) (m_threads s) Ls /\
    G + fold_right Z.add 0 Ls = T.

Lemma existsb_ctr c q : existsb (ctr_eqb c) q = true <-> In c q.
Proof.
  rewrite existsb_exists. split.
  - intros (x & Hx & E). destruct (ctr_eqb_spec c x); [subst; auto|discriminate].
  - intros H. exists c. split; auto. apply ctr_eqb_refl.
Qed.

Lemma existsb_ctr_false c q : ~ In c q -> existsb (ctr_eqb c) q = false.
Proof. rewrite <- existsb_ctr. destruct (existsb _ _); congruence. Qed.

Lemma Forall2_upd c l Ls t x x' : Forall2 (share c) l Ls -> nth_error l t = Some x ->
  exists L, share c x L /\ forall L', share c x' L' ->
    exists Ls', Forall2 (share c) (upd_thread l t x') Ls' /\ fold_right Z.add 0 Ls' = fold_right Z.add 0 Ls - L + L'.
Proof.
  intros HF. revert t. induction HF as [|y L l Ls Hy HF IH]; intros t Ht.
  - destruct t; discriminate.
  - destruct t as [|t]; simpl in Ht.
    + inversion Ht; subst. exists L. split; auto. intros L' HL'. exists (L' :: Ls). split; [constructor; auto|]. simpl. lia.
    + destruct (IH t Ht) as (L0 & H0 & H1). exists L0. split; auto. intros L' HL'. destruct (H1 L' HL') as (Ls' & H2 & H3).
      exists (L :: Ls'). split; [constructor; auto|]. simpl. lia.
Qed.

Lemma Forall_upd_thread (P : thread -> Prop) l t x : Forall P l -> P x -> Forall P (upd_thread l t x).
Proof. intros H. revert t. induction H; intros [|t] Hx; simpl; constructor; auto. Qed.

Lemma nth_error_twf l t x : Forall twf l -> nth_error l t = Some x -> twf x.
Proof. intros H Hn. apply nth_error_In in Hn. rewrite Forall_forall in H. auto. Qed.

(** Replacing thread [t] by one with the same unreported amounts. *)
Lemma conserved_same s T c t x x' : conserved s T c -> nth_error (m_threads s) t = Some x ->
  unreported c x' = unreported c x -> conserved (with_thread s t x') T c.
Proof.
  intros (G & Ls & H0 & HG & HF & HS) Hx E. destruct (Forall2_upd c _ _ t x x' HF Hx) as (L & HL & HU).
  destruct (HU L) as (Ls' & HF' & HS'). { destruct HL; split; auto. congruence. }
  exists G, Ls'. repeat split; auto. lia.
Qed.

(** What an action adds to the recorded total of [c]. *)
Definition gain (c : ctr) (a : action) : Z := match a with AProbe _ p => contribution c p | _ => 0 end.
Definition act_ok (a : action) : Prop := match a with AProbe _ p => probe_ok p | _ => True end.

Lemma mstep_step s T c a s' : Forall twf (m_threads s) -> conserved s T c -> act_ok a -> mstep s a = Next s' ->
  Forall twf (m_threads s') /\ conserved s' (T + gain c a) c.
Proof.
  intros IW IC Ha HS. destruct a as [t p|t|t|t|t]; simpl in HS; cbn [gain]; rewrite ?Z.add_0_r;
    destruct (nth_error (m_threads s) t) as [[l [q|] b]|] eqn:Ht; try discriminate.
  - injection HS as <-.
    pose proof (nth_error_twf _ _ _ IW Ht) as HW. split.
    + simpl. apply Forall_upd_thread; auto. exact (twf_probe _ p HW eq_refl).
    + destruct IC as (G & Ls & H0 & HG & HF & HS).
      set (x' := {| t_local := apply_probe l p; t_todo := None; t_inside := b |}).
      destruct (Forall2_upd c _ _ t _ x' HF Ht) as (L & [HL1 HL2] & HU).
      destruct (HU (L + contribution c p)) as (Ls' & HF' & HS').
      { split; [pose proof (contribution_nonneg c p Ha); lia|]. unfold x', unreported; simpl.
        rewrite apply_probe_ctr by apply (W_word _ HW). unfold unreported in HL2. simpl in HL2.
        rewrite HL2, Zplus_mod_idemp_l. reflexivity. }
      exists G, Ls'. repeat split; auto. lia.
  - injection HS as <-. pose proof (nth_error_twf _ _ _ IW Ht) as [W1 W2 W3 W4]. cbn [t_local t_todo t_inside] in *. split.
    + apply Forall_upd_thread; auto. split; cbn [t_local t_todo]; auto. intros q E. inversion E; subst. now apply NoDup_report.
    + eapply conserved_same; eauto. unfold unreported; cbn [t_local t_todo].
      destruct (existsb (ctr_eqb c) (report_order l)) eqn:E; auto. symmetry. apply W2.
      intros Hin. apply existsb_ctr in Hin. congruence.
  - destruct q as [|[] q]; try discriminate. destruct b; [discriminate|].
    destruct (existsb _ (m_threads s)); [discriminate|]. injection HS as <-.
    pose proof (nth_error_twf _ _ _ IW Ht) as [W1 W2 W3 W4]. cbn [t_local t_todo t_inside] in *. split.
    + apply Forall_upd_thread; auto. split; simpl; auto.
    + eapply conserved_same; eauto.
  - destruct q as [|c0 q]; [discriminate|].
    assert (HS' : s' = {| m_threads := upd_thread (m_threads s) t {| t_local := l; t_todo := Some q; t_inside := false |};
                    g_ctr := set_ctr (g_ctr s) c0 (add64 (g_ctr s c0) (l_ctr l c0));
                    g_keys := match c0 with
                              | CLoc k => if has_key k (g_keys s) then g_keys s else k :: g_keys s
                              | _ => g_keys s end |}).
    { destruct c0; try (injection HS as <-; reflexivity). destruct b; [injection HS as <-; reflexivity|discriminate]. }
    subst s'. clear HS. pose proof (nth_error_twf _ _ _ IW Ht) as [W1 W2 W3 W4]. cbn [t_local t_todo t_inside] in *.
    pose proof (W4 _ eq_refl) as HN. inversion HN; subst. split.
    + simpl. apply Forall_upd_thread; auto. split; simpl; auto. intros q' E. inversion E; subst. auto.
    + destruct IC as (G & Ls & H0 & HG & HF & HS).
      set (x' := {| t_local := l; t_todo := Some q; t_inside := false |}).
      destruct (Forall2_upd c _ _ t _ x' HF Ht) as (L & [HL1 HL2] & HU).
      unfold unreported in HL2. simpl in HL2. destruct (ctr_eqb_spec c c0) as [->|NE].
      * simpl in HL2. destruct (HU 0) as (Ls' & HF' & HS').
        { split; [lia|]. unfold x', unreported; simpl. rewrite existsb_ctr_false by auto. reflexivity. }
        exists (G + L), Ls'. split; [lia|]. simpl. unfold set_ctr. rewrite ctr_eqb_refl.
        split; [|split; [auto|lia]]. rewrite HG, HL2. unfold add64. now rewrite <- Z.add_mod by (unfold M64; lia).
      * simpl in HL2. destruct (HU L) as (Ls' & HF' & HS').
        { split; auto. }
        exists G, Ls'. split; [lia|]. simpl. unfold set_ctr. destruct (ctr_eqb_spec c c0); [contradiction|].
        repeat split; auto. lia.
  - destruct q; [|discriminate]. injection HS as <-. split.
    + apply Forall_upd_thread; auto. split; simpl; intros; auto; try discriminate. constructor. unfold word, M64; lia.
    + eapply conserved_same; eauto.
Qed.

Lemma minit_ok n c : Forall twf (m_threads (minit n)) /\ conserved (minit n) 0 c.
Proof.
  split.
  - simpl. induction n; simpl; constructor; auto using twf_idle.
  - exists 0, (repeat 0 n). split; [lia|]. split; [reflexivity|]. split.
    + simpl. induction n; simpl; constructor; auto. split; [lia|reflexivity].
    + induction n; simpl; lia.
Qed.

Lemma mstep_ok n s ps : mreach n s ps -> Forall twf (m_threads s) /\ forall c, conserved s (total c ps) c.
Proof.
  induction 1 as [|s ps t p s' HR [IW IC] Hp HS|s ps a s' HR [IW IC] Ha HS].
  - split; [apply (minit_ok n CInit)|intros c; apply (minit_ok n c)].
  - split; [eapply (mstep_step s _ CInit); eauto; exact Hp|].
    intros c. rewrite total_cons, Z.add_comm. eapply (mstep_step s _ c (AProbe t p)); eauto.
  - assert (A : act_ok a) by (destruct a; simpl; auto; exfalso; eapply Ha; reflexivity).
    split; [eapply (mstep_step s _ CInit); eauto|].
    intros c. replace (total c ps) with (total c ps + gain c a) by (destruct a; simpl; try lia; exfalso; eapply Ha; reflexivity).
    eapply (mstep_step s _ c a); eauto.
Qed.

Lemma share_sum c l Ls : Forall2 (share c) l Ls ->
  0 <= fold_right Z.add 0 Ls /\ (sum_unreported c l) mod M64 = (fold_right Z.add 0 Ls) mod M64 /\
  (fold_right Z.add 0 Ls < M64 -> sum_unreported c l = fold_right Z.add 0 Ls).
Proof.
  pose proof M64_pos.
  induction 1 as [|x L l Ls [H1 H2] HF (I1 & I2 & I3)]; simpl; [repeat split; lia|].
  fold (sum_unreported c l). split; [lia|]. split.
  - rewrite H2, Zplus_mod_idemp_l. rewrite <- (Zplus_mod_idemp_r (sum_unreported c l)), I2, Zplus_mod_idemp_r. reflexivity.
  - intros Hlt. rewrite I3 by lia. rewrite H2, Z.mod_small by lia. reflexivity.
Qed.

Lemma conservation n s ps c : mreach n s ps ->
  (g_ctr s c + sum_unreported c (m_threads s)) mod M64 = total c ps mod M64 /\
  (total c ps < M64 -> g_ctr s c + sum_unreported c (m_threads s) = total c ps).
Proof.
  intros HR. destruct (mstep_ok n s ps HR) as [_ HC]. destruct (HC c) as (G & Ls & H0 & HG & HF & HS).
  destruct (share_sum c _ _ HF) as (I1 & I2 & I3). pose proof M64_pos. split.
  - rewrite HG, Zplus_mod_idemp_l, <- Zplus_mod_idemp_r, I2, Zplus_mod_idemp_r, HS. reflexivity.
  - intros Hlt. rewrite I3 by lia. rewrite HG, Z.mod_small by lia. lia.
Qed.

(** * string() *)
Lemma percentages_ok g mk n i count d : d <> 0 -> exists l, percentages g mk n i count d = Ok l /\ length l = n.
Proof.
  intros Hd. revert i count. induction n as [|n IH]; intros i count; simpl; [eauto|].
  destruct (Z.eqb_spec d 0); [contradiction|]. destruct (IH (S i) (add64 count (g (mk i)))) as (l & -> & Hl).
  simpl. eexists. split; [reflexivity|]. simpl. lia.
Qed.

Fixpoint cumulative (g : nat -> Z) (n i : nat) (acc : Z) : list Z :=
  match n with O => [] | S k => (acc + g i) :: cumulative g k (S i) (acc + g i) end.

Lemma percentages_val g mk n : forall i count d, d <> 0 -> 0 <= count -> (forall k, 0 <= g (mk k)) ->
  Forall (fun x => x * 100 < M64) (cumulative (fun k => g (mk k)) n i count) ->
  percentages g mk n i count d = Ok (map (fun x => x * 100 / d) (cumulative (fun k => g (mk k)) n i count)).
Proof.
  induction n as [|n IH]; intros i count d Hd Hc Hg HF; simpl; auto.
  destruct (Z.eqb_spec d 0); [contradiction|]. cbn [cumulative] in HF. inversion HF as [|? ? Hx HF']; subst.
  pose proof (Hg i). rewrite (add64_small count) by lia. rewrite IH by (auto; lia). simpl.
  rewrite mul64_small by lia. reflexivity.
Qed.

(** Cumulative bucket counts. *)
Lemma interval_diff bounds k n lo hi : nth_error bounds (S k) = Some hi -> nth_error bounds k = Some lo -> lo <= hi ->
  (if in_interval bounds (S k) n then 1 else 0) = (if n <=? hi then 1 else 0) - (if n <=? lo then 1 else 0).
Proof.
  intros E1 E2 H. unfold in_interval. rewrite E1, E2.
  destruct (Z.leb_spec n hi), (Z.leb_spec n lo), (Z.ltb_spec lo n); simpl; lia.
Qed.
Lemma count_diff bounds k l lo hi : nth_error bounds (S k) = Some hi -> nth_error bounds k = Some lo -> lo <= hi ->
  countif (in_interval bounds (S k)) l = countif (fun n => n <=? hi) l - countif (fun n => n <=? lo) l.
Proof.
  intros E1 E2 H. induction l as [|n l IH]; [reflexivity|]. rewrite !countif_cons, IH, (interval_diff _ _ _ _ _ E1 E2 H). lia.
Qed.
Lemma count_zeroth bounds l hi : nth_error bounds 0 = Some hi -> countif (in_interval bounds 0) l = countif (fun n => n <=? hi) l.
Proof.
  intros E. induction l as [|n l IH]; [reflexivity|]. rewrite !countif_cons, IH. unfold in_interval. rewrite E, andb_true_r. reflexivity.
Qed.

Lemma cumulative_size l : cumulative (fun k => countif (in_interval size_bounds k) l) 8 0 0 =
  map (fun b => countif (fun n => n <=? b) l) size_bounds.
Proof.
  cbn [cumulative]. rewrite (count_zeroth size_bounds l 64) by reflexivity.
  rewrite (count_diff size_bounds 0 l 64 128), (count_diff size_bounds 1 l 128 256), (count_diff size_bounds 2 l 256 512),
    (count_diff size_bounds 3 l 512 1024), (count_diff size_bounds 4 l 1024 2048), (count_diff size_bounds 5 l 2048 4096),
    (count_diff size_bounds 6 l 4096 1048576) by (reflexivity || lia).
  unfold size_bounds. cbn [map].
  repeat (apply f_equal2; [lia|]). reflexivity.
Qed.
Lemma cumulative_life l : cumulative (fun k => countif (in_interval life_bounds k) l) 8 0 0 =
  map (fun b => countif (fun n => n <=? b) l) life_bounds.
Proof.
  cbn [cumulative]. rewrite (count_zeroth life_bounds l 1) by reflexivity.
  rewrite (count_diff life_bounds 0 l 1 5), (count_diff life_bounds 1 l 5 10), (count_diff life_bounds 2 l 10 50),
    (count_diff life_bounds 3 l 50 100), (count_diff life_bounds 4 l 100 200), (count_diff life_bounds 5 l 200 500),
    (count_diff life_bounds 6 l 500 1000) by (reflexivity || lia).
  unfold life_bounds. cbn [map].
  repeat (apply f_equal2; [lia|]). reflexivity.
Qed.

Lemma countif_nonneg {T} (f : T -> bool) l : 0 <= countif f l.
Proof. unfold countif. lia. Qed.
Lemma countif_le {T} (f : T -> bool) l : countif f l <= Z.of_nat (length l).
Proof. induction l; [unfold countif; simpl; lia|]. rewrite countif_cons. cbn [length]. destruct (f a); lia. Qed.

Lemma total_nonneg c ps : Forall probe_ok ps -> 0 <= total c ps.
Proof. induction 1 as [|p ps Hp HF IH]; [unfold total; simpl; lia|]. rewrite total_cons. pose proof (contribution_nonneg c p Hp). lia. Qed.

Lemma total_alloc ps : total CAlloc ps = Z.of_nat (length (sizes_of ps)).
Proof. induction ps as [|p ps IH]; [reflexivity|]. rewrite total_cons, sizes_of_cons, IH, app_length. destruct p; cbn [contribution length]; lia. Qed.
Lemma total_destruct ps : total CDestruct ps = Z.of_nat (length (lifetimes_of ps)).
Proof. induction ps as [|p ps IH]; [reflexivity|]. rewrite total_cons, lifetimes_of_cons, IH, app_length. destruct p; cbn [contribution length]; lia. Qed.

Definition shares (bounds : list Z) (l : list Z) : list Z :=
  map (fun b => countif (fun n => n <=? b) l * 100 / Z.of_nat (length l)) bounds.

Lemma percentages_ext g h n mk d : (forall k, (k < n)%nat -> g (mk k) = h (mk k)) -> forall m i count, (i + m <= n)%nat ->
  percentages g mk m i count d = percentages h mk m i count d.
Proof.
  intros E. induction m as [|m IH]; intros i count Hi; simpl; auto. rewrite E by lia. destruct (d =? 0); auto. now rewrite IH by lia.
Qed.

Lemma string_ok g ps : (forall c, total c ps < M64 -> g c = total c ps) ->
  sizes_of ps <> [] -> lifetimes_of ps <> [] -> Z.of_nat (length ps) * 100 < M64 ->
  global_string g = Ok (shares size_bounds (sizes_of ps), shares life_bounds (lifetimes_of ps)).
Proof.
  intros Hg Hs Hl Hb.
  assert (LS : Z.of_nat (length (sizes_of ps)) <= Z.of_nat (length ps)).
  { clear. induction ps as [|p ps IH]; [simpl; lia|]. rewrite sizes_of_cons, app_length. destruct p; cbn [length]; lia. }
  assert (LL : Z.of_nat (length (lifetimes_of ps)) <= Z.of_nat (length ps)).
  { clear. induction ps as [|p ps IH]; [simpl; lia|]. rewrite lifetimes_of_cons, app_length. destruct p; cbn [length]; lia. }
  assert (NS : Z.of_nat (length (sizes_of ps)) <> 0) by (destruct (sizes_of ps); simpl; [congruence|lia]).
  assert (NL : Z.of_nat (length (lifetimes_of ps)) <> 0) by (destruct (lifetimes_of ps); simpl; [congruence|lia]).
  unfold global_string. rewrite !Hg by (rewrite ?total_alloc, ?total_destruct; unfold M64 in *; lia).
  rewrite total_alloc, total_destruct.
  assert (B : forall k, g (CBucket k) = countif (in_interval size_bounds k) (sizes_of ps)).
  { intros k. pose proof (countif_le (in_interval size_bounds k) (sizes_of ps)). rewrite Hg; rewrite total_bucket; auto. unfold M64 in *; lia. }
  assert (L : forall k, g (CLife k) = countif (in_interval life_bounds k) (lifetimes_of ps)).
  { intros k. pose proof (countif_le (in_interval life_bounds k) (lifetimes_of ps)). rewrite Hg; rewrite total_life; auto. unfold M64 in *; lia. }
  assert (CE : forall f f' n i a, (forall k, f k = f' k) -> cumulative f n i a = cumulative f' n i a).
  { clear. intros f f' n. induction n; intros i a E; simpl; auto. rewrite E. f_equal. auto. }
  assert (EB : cumulative (fun k => g (CBucket k)) 8 0 0 = map (fun b => countif (fun n => n <=? b) (sizes_of ps)) size_bounds).
  { rewrite <- cumulative_size. apply CE. exact B. }
  assert (EL : cumulative (fun k => g (CLife k)) 8 0 0 = map (fun b => countif (fun n => n <=? b) (lifetimes_of ps)) life_bounds).
  { rewrite <- cumulative_life. apply CE. exact L. }
  rewrite (percentages_val g CBucket 8 0 0) with (d := Z.of_nat (length (sizes_of ps))).
  - rewrite (percentages_val g CLife 8 0 0) with (d := Z.of_nat (length (lifetimes_of ps))).
    + rewrite EB, EL, !map_map. reflexivity.
    + auto.
    + lia.
    + intros k. rewrite L. apply countif_nonneg.
    + rewrite EL. apply Forall_forall. intros x Hx. apply in_map_iff in Hx as (b & <- & _).
      pose proof (countif_le (fun n => n <=? b) (lifetimes_of ps)). lia.
  - auto.
  - lia.
  - intros k. rewrite B. apply countif_nonneg.
  - rewrite EB. apply Forall_forall. intros x Hx. apply in_map_iff in Hx as (b & <- & _).
    pose proof (countif_le (fun n => n <=? b) (sizes_of ps)). lia.
Qed.

Lemma bucket_sum ps :
  let l := fold_right (fun p l => apply_probe l p) local_reset ps in
  countif (fun n => n <=? 1048576) (sizes_of ps) < M64 ->
  fold_right (fun k s => l_ctr l (CBucket k) + s) 0 (seq 0 8) = countif (fun n => n <=? 1048576) (sizes_of ps).
Proof.
  intros l H. assert (E : forall k, (k < 8)%nat -> l_ctr l (CBucket k) = countif (in_interval size_bounds k) (sizes_of ps)).
  { intros k Hk. unfold l. rewrite local_total, total_bucket. apply Z.mod_small. split; [apply countif_nonneg|].
    eapply Z.le_lt_trans; [|exact H]. rewrite <- partition_size. clear - Hk.
    assert (G : forall ks, In k ks -> countif (in_interval size_bounds k) (sizes_of ps) <=
       fold_right (fun k s => countif (in_interval size_bounds k) (sizes_of ps) + s) 0 ks).
    { assert (N : forall ks, 0 <= fold_right (fun k s => countif (in_interval size_bounds k) (sizes_of ps) + s) 0 ks).
      { induction ks as [|j ks IH]; simpl; [lia|]. pose proof (countif_nonneg (in_interval size_bounds j) (sizes_of ps)). lia. }
      induction ks as [|j ks IH]; intros []; cbn [fold_right].
      - subst. specialize (N ks). lia.
      - pose proof (countif_nonneg (in_interval size_bounds j) (sizes_of ps)). specialize (IH H). lia. }
    apply G. apply in_seq. lia. }
  rewrite <- partition_size. cbn [seq fold_right]. rewrite !E by lia. reflexivity.
Qed.
Lemma life_sum ps :
  let l := fold_right (fun p l => apply_probe l p) local_reset ps in
  countif (fun n => n <=? 1000) (lifetimes_of ps) < M64 ->
  fold_right (fun k s => l_ctr l (CLife k) + s) 0 (seq 0 8) = countif (fun n => n <=? 1000) (lifetimes_of ps).
Proof.
  intros l H. assert (E : forall k, (k < 8)%nat -> l_ctr l (CLife k) = countif (in_interval life_bounds k) (lifetimes_of ps)).
  { intros k Hk. unfold l. rewrite local_total, total_life. apply Z.mod_small. split; [apply countif_nonneg|].
    eapply Z.le_lt_trans; [|exact H]. rewrite <- partition_life. clear - Hk.
    assert (G : forall ks, In k ks -> countif (in_interval life_bounds k) (lifetimes_of ps) <=
       fold_right (fun k s => countif (in_interval life_bounds k) (lifetimes_of ps) + s) 0 ks).
    { assert (N : forall ks, 0 <= fold_right (fun k s => countif (in_interval life_bounds k) (lifetimes_of ps) + s) 0 ks).
      { induction ks as [|j ks IH]; simpl; [lia|]. pose proof (countif_nonneg (in_interval life_bounds j) (lifetimes_of ps)). lia. }
      induction ks as [|j ks IH]; intros []; cbn [fold_right].
      - subst. specialize (N ks). lia.
      - pose proof (countif_nonneg (in_interval life_bounds j) (lifetimes_of ps)). specialize (IH H). lia. }
    apply G. apply in_seq. lia. }
  rewrite <- partition_life. cbn [seq fold_right]. rewrite !E by lia. reflexivity.
Qed.

