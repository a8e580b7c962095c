(** Proofs about texts: finding, trimming, splitting. *)
Require Import ZArith List Bool Lia Arith.
From Verif Require Import OptModel OptSpec.
Import ListNotations.
Open Scope Z_scope.

Lemma seqb_eq a b : seqb a b = true <-> a = b.
Proof.
  revert b. induction a as [|x a IH]; destruct b as [|y b]; cbn; try (split; congruence).
  rewrite andb_true_iff, Z.eqb_eq, IH. split; [intros (-> & ->); reflexivity|intros E; injection E; auto].
Qed.
Lemma seqb_refl a : seqb a a = true. Proof. apply seqb_eq. reflexivity. Qed.
Lemma seqb_neq a b : seqb a b = false <-> a <> b.
Proof. rewrite <- seqb_eq. destruct (seqb a b); split; congruence. Qed.
Lemma prefixb_ok a s : prefixb a s = true <-> exists r, s = a ++ r.
Proof.
  revert s. induction a as [|x a IH]; destruct s as [|y s]; cbn; try (split; eauto; congruence).
  - split; [discriminate|intros (r & E); discriminate].
  - rewrite andb_true_iff, Z.eqb_eq, IH. split; [intros (-> & r & ->); eauto|intros (r & E); injection E as -> ->; eauto].
Qed.
Lemma blank_white c : blank c = true <-> white c.
Proof. unfold blank, white. rewrite orb_true_iff, andb_true_iff, Z.eqb_eq, !Z.leb_le. reflexivity. Qed.
Lemma not_blank c : blank c = false <-> ~ white c.
Proof. rewrite <- blank_white. destruct (blank c); split; congruence. Qed.

(** ** find of one character *)
Lemma find_at_some d : forall s i j, find_at [d] s i = Some j -> exists x y, s = x ++ d :: y /\ ~ In d x /\ j = (i + length x)%nat.
Proof.
  induction s as [|c s IH]; cbn [find_at prefixb]; intros i j H; [discriminate|]. destruct (Z.eqb_spec d c) as [->|N]; cbn [andb] in H.
  - injection H as <-. exists [], s. repeat split; auto; cbn; lia.
  - destruct (IH _ _ H) as (x & y & -> & X & ->). exists (c :: x), y. split; [reflexivity|]. split; [intros [E|E]; [congruence|auto]|cbn; lia].
Qed.
Lemma find_at_none d : forall s i, find_at [d] s i = None -> ~ In d s.
Proof.
  induction s as [|c s IH]; cbn [find_at prefixb]; intros i H; [auto|]. destruct (Z.eqb_spec d c) as [->|N]; cbn [andb] in H; [discriminate|].
  intros [E|E]; [congruence|exact (IH _ H E)].
Qed.
Lemma find_char_some d s j : find [d] s 0 = Some j -> exists y, s = firstn j s ++ d :: y /\ ~ In d (firstn j s) /\ (j < length s)%nat.
Proof.
  unfold find. cbn [Nat.leb skipn]. intros H. destruct (find_at_some _ _ _ _ H) as (x & y & -> & N & ->). cbn [Nat.add].
  exists y. rewrite firstn_app, Nat.sub_diag, firstn_all. cbn [firstn]. rewrite app_nil_r. repeat split; auto. rewrite app_length. cbn. lia.
Qed.
Lemma find_char_none d s : find [d] s 0 = None -> ~ In d s.
Proof. unfold find. cbn [Nat.leb skipn]. apply find_at_none. Qed.

(** ** name=value *)
Lemma cut_none s : ~ In 61 s -> extract_opt_name s = s /\ extract_opt_value s = [].
Proof.
  intros H. unfold extract_opt_name, extract_opt_value. destruct (find [61] s 0) as [j|] eqn:E; [|auto].
  exfalso. destruct (find_char_some _ _ _ E) as (y & E1 & _). apply H. rewrite E1. apply in_or_app. right. left. reflexivity.
Qed.
Lemma split_first (d : Z) x1 : forall x2 y1 y2, x1 ++ d :: y1 = x2 ++ d :: y2 -> ~ In d x1 -> ~ In d x2 -> x1 = x2 /\ y1 = y2.
Proof.
  induction x1 as [|a x1 IH]; intros [|b x2] y1 y2 E N1 N2; cbn in *.
  - injection E as ->. auto.
  - injection E as -> _. exfalso; auto.
  - injection E as <- _. exfalso; auto.
  - injection E as <- E. destruct (IH x2 y1 y2 E) as (-> & ->); auto.
Qed.
Lemma cut_some n v : ~ In 61 n -> extract_opt_name (n ++ 61 :: v) = n /\ extract_opt_value (n ++ 61 :: v) = v.
Proof.
  intros H. unfold extract_opt_name, extract_opt_value. destruct (find [61] (n ++ 61 :: v) 0) as [j|] eqn:E.
  - destruct (find_char_some _ _ _ E) as (y & E1 & N & L). destruct (split_first _ _ _ _ _ E1 H N) as (E2 & <-).
    assert (J : j = length n).
    { rewrite E2. rewrite firstn_length. lia. }
    unfold substr. cbn [skipn]. rewrite <- E2. split; [reflexivity|]. rewrite J, skipn_app, skipn_all2 by lia. cbn [app]. replace (length n + 1 - length n)%nat with 1%nat by lia. reflexivity.
  - exfalso. apply find_char_none in E. apply E. apply in_or_app. right. left. reflexivity.
Qed.
Lemma cut_ok s : exists v, cut s (extract_opt_name s) v /\ match v with Some x => extract_opt_value s = x | None => extract_opt_value s = [] end /\
  (find [61] s 0 = None <-> v = None).
Proof.
  destruct (find [61] s 0) as [j|] eqn:E.
  - destruct (find_char_some _ _ _ E) as (y & E1 & N & L). destruct (cut_some (firstn j s) y N) as (A & B). rewrite <- E1 in A, B.
    exists (Some y). split; [split; [rewrite A; exact N|rewrite A; exact E1]|]. split; [exact B|]. split; discriminate.
  - apply find_char_none in E. destruct (cut_none s E) as (A & B). exists None. rewrite A. split; [split; auto|]. split; [exact B|]. split; reflexivity.
Qed.
Lemma cut_unique s n v n' v' : cut s n v -> cut s n' v' -> n = n' /\ v = v'.
Proof.
  intros (N & H) (N' & H'). destruct v as [x|], v' as [x'|]; subst.
  - destruct (split_first _ _ _ _ _ H' N N') as (-> & ->). auto.
  - exfalso. apply N'. apply in_or_app. right. left. reflexivity.
  - exfalso. apply N. apply in_or_app. right. left. reflexivity.
  - auto.
Qed.
Lemma cut_model s n v : cut s n v -> extract_opt_name s = n /\ extract_opt_value s = match v with Some x => x | None => [] end.
Proof. intros (N & H). destruct v as [x|]; subst; [apply cut_some|apply cut_none]; exact N. Qed.

(** ** trim_string *)
Lemma first_not_blank_ok : forall s i, match first_not_blank s i with
  | None => Forall white s
  | Some j => exists b c r, s = b ++ c :: r /\ Forall white b /\ ~ white c /\ j = (i + length b)%nat end.
Proof.
  induction s as [|c s IH]; intros i; cbn [first_not_blank]; [constructor|]. destruct (blank c) eqn:B.
  - specialize (IH (S i)). destruct (first_not_blank s (S i)) as [j|].
    + destruct IH as (b & c' & r & -> & W & N & ->). exists (c :: b), c', r. repeat split; auto; try (cbn; lia); constructor; [apply blank_white; exact B|exact W].
    + constructor; [apply blank_white; exact B|exact IH].
  - exists [], c, s. repeat split; auto; try (cbn; lia); apply not_blank; exact B.
Qed.
Lemma last_not_blank_ok : forall s i best, match last_not_blank s i best with
  | None => Forall white s /\ best = None
  | Some j => (Forall white s /\ best = Some j) \/ exists r c e, s = r ++ c :: e /\ Forall white e /\ ~ white c /\ j = (i + length r)%nat end.
Proof.
  induction s as [|c s IH]; intros i best; cbn [last_not_blank].
  - destruct best; [left|]; auto.
  - specialize (IH (S i) (if blank c then best else Some i)). destruct (last_not_blank s (S i) _) as [j|].
    + destruct IH as [(W & E)|(r & c' & e & -> & W & N & ->)].
      * destruct (blank c) eqn:B; [left; split; [constructor; [apply blank_white; exact B|exact W]|exact E]|]. injection E as <-.
        right. exists [], c, s. repeat split; auto; try (cbn; lia); apply not_blank; exact B.
      * right. exists (c :: r), c', e. repeat split; auto; cbn; lia.
    + destruct IH as (W & E). destruct (blank c) eqn:B; [|discriminate]. split; [constructor; [apply blank_white; exact B|exact W]|exact E].
Qed.
Lemma trim_ok s : trimmed s (trim_string s).
Proof.
  unfold trim_string. pose proof (last_not_blank_ok s 0 None) as L. pose proof (first_not_blank_ok s 0) as F.
  destruct (last_not_blank s 0 None) as [j|].
  2:{ destruct L as (W & _). exists s, []. rewrite !app_nil_r. repeat split; auto; try discriminate. intros c r E. destruct r; discriminate. }
  destruct L as [(_ & E)|(r1 & c1 & e & E1 & We & N1 & ->)]; [discriminate|].
  destruct (first_not_blank s 0) as [k|].
  2:{ exfalso. rewrite E1 in F. apply Forall_app in F. destruct F as (_ & F). inversion F. contradiction. }
  destruct F as (b & c & r & E2 & Wb & N & ->). cbn [Nat.add].
  assert (LE : (length b <= length r1)%nat).
  { destruct (le_lt_dec (length b) (length r1)); [assumption|]. exfalso. apply N1. assert (X : nth_error b (length r1) = Some c1).
    { rewrite <- (nth_error_app1 b (c :: r)) by assumption. rewrite <- E2, E1. rewrite nth_error_app2 by lia. rewrite Nat.sub_diag. reflexivity. }
    apply nth_error_In in X. rewrite Forall_forall in Wb. exact (Wb _ X). }
  assert (E3 : exists m, r1 = b ++ m).
  { exists (skipn (length b) r1). rewrite <- (firstn_skipn (length b) r1) at 1. f_equal.
    assert (X : firstn (length b) s = b) by (rewrite E2, firstn_app, Nat.sub_diag, firstn_all; cbn [firstn]; apply app_nil_r).
    rewrite E1 in X. rewrite firstn_app in X. replace (length b - length r1)%nat with 0%nat in X by lia. cbn [firstn] in X. rewrite app_nil_r in X. exact X. }
  destruct E3 as (m & ->). assert (T : substr (length b) (length (b ++ m) - length b + 1) s = m ++ [c1]).
  { unfold substr. rewrite E1, <- app_assoc, skipn_app, skipn_all2, Nat.sub_diag by lia. cbn [skipn app]. rewrite app_length. replace (length b + length m - length b + 1)%nat with (length m + 1)%nat by lia.
    change (c1 :: e) with ([c1] ++ e). rewrite app_assoc, firstn_app. replace (length m + 1 - length (m ++ [c1]))%nat with 0%nat by (rewrite app_length; cbn; lia). cbn [firstn]. rewrite app_nil_r. apply firstn_all2. rewrite app_length. cbn. lia. }
  rewrite T. exists b, e. split; [rewrite E1, <- !app_assoc; reflexivity|]. split; [exact Wb|]. split; [exact We|].
  assert (E4 : m ++ c1 :: e = c :: r) by (apply (app_inv_head b); rewrite <- E2, E1, <- app_assoc; reflexivity).
  split.
  - intros c' r' E. destruct m; cbn in E, E4; injection E as <- _; injection E4 as <- _; exact N.
  - intros c' r' E. apply app_inj_tail in E. destruct E as (_ & <-). exact N1.
Qed.
Lemma white_prefix b1 : forall b2 (t1 t2 : list Z), b1 ++ t1 = b2 ++ t2 -> Forall white b1 -> Forall white b2 ->
  (forall c r, t1 = c :: r -> ~ white c) -> (forall c r, t2 = c :: r -> ~ white c) -> b1 = b2 /\ t1 = t2.
Proof.
  induction b1 as [|x b1 IH]; intros [|y b2] t1 t2 E W1 W2 N1 N2; cbn in *.
  - auto.
  - exfalso. inversion W2; subst. apply (N1 y (b2 ++ t2)); auto.
  - exfalso. inversion W1; subst. apply (N2 x (b1 ++ t1)); auto.
  - injection E as <- E. inversion W1; inversion W2; subst. destruct (IH b2 t1 t2) as (-> & ->); auto.
Qed.
Lemma trimmed_unique s t t' : trimmed s t -> trimmed s t' -> t = t'.
Proof.
  intros (b & e & E & Wb & We & N & N') (b' & e' & E' & Wb' & We' & M & M').
  destruct t as [|c r], t' as [|c' r'].
  - reflexivity.
  - exfalso. apply (M c' r' eq_refl). cbn in E. assert (X : In c' s) by (rewrite E'; apply in_or_app; right; left; reflexivity).
    rewrite E in X. apply in_app_or in X. rewrite Forall_forall in Wb, We. destruct X; auto.
  - exfalso. apply (N c r eq_refl). cbn in E'. assert (X : In c s) by (rewrite E; apply in_or_app; right; left; reflexivity).
    rewrite E' in X. apply in_app_or in X. rewrite Forall_forall in Wb', We'. destruct X; auto.
  - rewrite E in E'. destruct (white_prefix b b' ((c :: r) ++ e) ((c' :: r') ++ e') E' Wb Wb') as (_ & X).
    + intros x y Q. injection Q as <- _. apply (N c r eq_refl).
    + intros x y Q. injection Q as <- _. apply (M c' r' eq_refl).
    + apply (f_equal (@rev Z)) in X. rewrite !rev_app_distr in X. destruct (white_prefix _ _ _ _ X) as (_ & Y).
      * apply Forall_rev. exact We.
      * apply Forall_rev. exact We'.
      * intros x y Q. apply (N' x (rev y)). apply (f_equal (@rev Z)) in Q. rewrite rev_involutive in Q. exact Q.
      * intros x y Q. apply (M' x (rev y)). apply (f_equal (@rev Z)) in Q. rewrite rev_involutive in Q. exact Q.
      * apply (f_equal (@rev Z)) in Y. rewrite !rev_involutive in Y. exact Y.
Qed.
Lemma trim_is s t : trimmed s t -> trim_string s = t.
Proof. intros H. exact (trimmed_unique _ _ _ (trim_ok s) H). Qed.

(** ** split *)
Lemma skipn_skipn' {A} n : forall m (l : list A), skipn n (skipn m l) = skipn (n + m) l.
Proof. induction m; intros l; [rewrite Nat.add_0_r; reflexivity|]. destruct l; [rewrite !skipn_nil; reflexivity|]. rewrite Nat.add_succ_r. cbn [skipn]. apply IHm. Qed.
Definition kept (skip_empty : bool) (l : list str) : list str :=
  if skip_empty then filter (fun x => negb (nullb x)) l else l.
Lemma split_loop_ok d skip : forall fuel s k toks, (k <= length s)%nat -> (length s - k < fuel)%nat ->
  exists l, pieces d (skipn k s) l /\ split_loop fuel s [d] skip k toks = Ok (toks ++ map trim_string (kept skip l)).
Proof.
  induction fuel as [|fuel IH]; intros s k toks Hk F; [lia|]. cbn [split_loop]. unfold find.
  destruct (Nat.leb_spec k (length s)); [|lia]. set (r := skipn k s). assert (LR : length r = (length s - k)%nat) by apply skipn_length.
  assert (SUB : forall x n, n = length x -> (exists y, r = x ++ y) -> substr k n s = x).
  { intros x n -> (y & E). unfold substr. fold r. rewrite E, firstn_app, Nat.sub_diag, firstn_all. cbn [firstn]. apply app_nil_r. }
  assert (TK : forall x, (if negb skip || negb (length x =? 0)%nat then toks ++ [trim_string x] else toks) = toks ++ map trim_string (kept skip [x])).
  { intros x. unfold kept. destruct skip; cbn [negb orb filter]; [|reflexivity]. destruct x; cbn [length Nat.eqb negb nullb map]; [symmetry; apply app_nil_r|reflexivity]. }
  destruct (find_at [d] r k) as [j|] eqn:E.
  - destruct (find_at_some _ _ _ _ E) as (x & y & E1 & N & ->). assert (LL : (length s - k = length x + S (length y))%nat) by (rewrite <- LR, E1, app_length; reflexivity).
    replace (k + length x - k)%nat with (length x) by lia. rewrite (SUB x) by (auto; rewrite E1; eauto). rewrite TK.
    destruct (Nat.eqb_spec (k + length x) (length s)); [lia|]. cbn [length].
    destruct (IH s (k + length x + 1)%nat (toks ++ map trim_string (kept skip [x])) ltac:(lia) ltac:(lia)) as (l & (NE & J & FA) & R). rewrite R. exists (x :: l). split.
    + split; [discriminate|]. split; [|constructor; assumption].
      assert (SK : skipn (k + length x + 1) s = y).
      { replace (k + length x + 1)%nat with ((length x + 1) + k)%nat by lia. rewrite <- skipn_skipn'. fold r. rewrite E1, skipn_app, skipn_all2 by lia. replace (length x + 1 - length x)%nat with 1%nat by lia. reflexivity. }
      rewrite SK in J. cbn [join]. destruct l as [|z l]; [congruence|]. rewrite J, E1. reflexivity.
    + f_equal. rewrite <- app_assoc, <- map_app. f_equal. f_equal. unfold kept. destruct skip; [|reflexivity]. cbn [filter]. destruct (negb (nullb x)); reflexivity.
  - apply find_at_none in E. rewrite Nat.eqb_refl. rewrite (SUB r) by (auto; exists []; rewrite app_nil_r; reflexivity). rewrite <- LR, TK.
    exists [r]. split; [|reflexivity]. split; [discriminate|]. split; [reflexivity|]. constructor; [exact E|constructor].
Qed.
Lemma split_ok s d skip : exists l, pieces d s l /\ split s [d] skip = Ok (map trim_string (kept skip l)).
Proof. unfold split. destruct (split_loop_ok d skip (S (length s)) s 0 [] ltac:(lia) ltac:(lia)) as (l & P & E). exists l. split; [exact P|exact E]. Qed.
Lemma pieces_unique d : forall l s l', pieces d s l -> pieces d s l' -> l = l'.
Proof.
  induction l as [|x l IH]; intros s l' (NE & J & F) (NE' & J' & F'); [congruence|]. destruct l' as [|x' l']; [congruence|].
  inversion F as [|? ? Nx Fl]; inversion F' as [|? ? Nx' Fl']; subst. cbn [join] in *. destruct l as [|y l], l' as [|y' l'].
  - f_equal. auto.
  - exfalso. apply Nx. rewrite <- J'. apply in_or_app. right. left. reflexivity.
  - exfalso. apply Nx'. rewrite J'. apply in_or_app. right. left. reflexivity.
  - destruct (split_first _ _ _ _ _ J' Nx' Nx) as (-> & E). f_equal. apply (IH (join d (y :: l))); split; try discriminate; auto.
Qed.
Lemma unblank_app a b : unblank (a ++ b) = unblank a ++ unblank b. Proof. apply filter_app. Qed.
Lemma unblank_white b : Forall white b -> unblank b = [].
Proof. induction 1 as [|c b W _ IH]; [reflexivity|]. unfold unblank in *. cbn [filter]. apply blank_white in W. unfold blank in W. rewrite W. exact IH. Qed.
Lemma unblank_trim s : unblank (trim_string s) = unblank s.
Proof. destruct (trim_ok s) as (b & e & E & Wb & We & _). rewrite E at 2. rewrite !unblank_app, (unblank_white b Wb), (unblank_white e We), app_nil_r. reflexivity. Qed.
Lemma unblank_join d l : unblank (join d (map trim_string l)) = unblank (join d l).
Proof.
  induction l as [|x l IH]; [reflexivity|]. destruct l as [|y l]; [apply unblank_trim|].
  change (join d (map trim_string (x :: y :: l))) with (trim_string x ++ [d] ++ join d (map trim_string (y :: l))). change (join d (x :: y :: l)) with (x ++ [d] ++ join d (y :: l)).
  rewrite !unblank_app, unblank_trim, IH. reflexivity.
Qed.
