Require Import ZArith List Bool Lia.
From Verif Require Import Base BaseProofs AlignModel LiteralsModel BasicSpec.
Import ListNotations.
Open Scope Z_scope.

Lemma land_neg_pow2 (k x : Z) :
  0 <= k <= 64 -> 0 <= x < 2 ^ 64 ->
  Z.land x ((0 - 2 ^ k) mod 2 ^ 64) = x / 2 ^ k * 2 ^ k.
Proof.
  intros Hk Hx.
  rewrite <- Z.shiftl_mul_pow2, <- Z.shiftr_div_pow2 by lia.
  apply Z.bits_inj'; intros n Hn.
  rewrite Z.land_spec, Z.shiftl_spec by lia.
  rewrite <- (Z.land_ones (0 - 2 ^ k) 64) by lia.
  rewrite Z.land_spec.
  replace (0 - 2 ^ k) with (Z.lnot (Z.ones k)) by (rewrite Z.ones_equiv; unfold Z.lnot; lia).
  rewrite Z.lnot_spec by lia.
  destruct (Z.ltb_spec n k) as [L|L].
  - rewrite (Z.ones_spec_low k) by lia. simpl.
    rewrite andb_false_r. symmetry. apply Z.testbit_neg_r; lia.
  - rewrite (Z.ones_spec_high k) by lia. simpl.
    rewrite Z.shiftr_spec by lia. replace (n - k + k) with n by lia.
    destruct (Z.ltb_spec n 64) as [L2|L2].
    + rewrite Z.ones_spec_low by lia. now rewrite andb_true_r.
    + rewrite Z.ones_spec_high by lia. rewrite andb_false_r.
      symmetry. destruct (Z.eq_dec x 0) as [->|]; [apply Z.bits_0|].
      apply Z.bits_above_log2; [lia|]. apply Z.log2_lt_pow2; [lia|].
      eapply Z.lt_le_trans; [apply Hx|]. apply Z.pow_le_mono_r; lia.
Qed.

Lemma AlignUpTo_eq N n :
  power_of_two N -> word n -> n + N - 1 < M64 ->
  AlignUpTo N n = (n + N - 1) / N * N.
Proof.
  intros (k & Hk & ->) [Hn0 Hn] Hov. unfold AlignUpTo.
  assert (1 <= 2 ^ k) by (assert (0 < 2 ^ k) by (apply Z.pow_pos_nonneg; lia); lia).
  assert (E : sub64 (add64 n (2 ^ k)) 1 = n + 2 ^ k - 1).
  { unfold sub64, add64. rewrite Zminus_mod_idemp_l. apply Z.mod_small; lia. }
  rewrite E. unfold sub64. rewrite M64_pow. apply land_neg_pow2; [lia|].
  rewrite M64_pow in Hov. lia.
Qed.

Lemma round_up_least b n :
  0 < b -> 0 <= n -> least_multiple_above b n ((n + b - 1) / b * b).
Proof.
  intros Hb Hn. unfold least_multiple_above.
  pose proof (Z.div_mod (n + b - 1) b ltac:(lia)).
  pose proof (Z.mod_pos_bound (n + b - 1) b Hb).
  repeat split.
  - nia.
  - eexists; reflexivity.
  - intros m' Hm (q & ->). 
    destruct (Z_lt_le_dec q ((n + b - 1) / b)) as [L|L]; [exfalso; nia|nia].
Qed.

Lemma AlignUpTo_spec N n :
  power_of_two N -> word n -> n + N - 1 < M64 ->
  least_multiple_above N n (AlignUpTo N n).
Proof.
  intros HN Hn Hov. rewrite AlignUpTo_eq by assumption.
  apply round_up_least; [|apply Hn].
  destruct HN as (k & Hk & ->). apply Z.pow_pos_nonneg; lia.
Qed.

(** The template side condition is exactly "power of two, at least 8". *)
Lemma align_template_ok_pow2 N :
  word N -> align_template_ok N = true -> power_of_two N /\ 8 <= N.
Proof.
  intros [H0 H1] H. unfold align_template_ok in H.
  apply andb_true_iff in H as [H H8]. apply Z.eqb_eq in H. apply Z.leb_le in H8.
  split; [|auto].
  rewrite sub64_small in H by lia.
  exists (Z.log2 N). assert (HN : 0 < N) by lia.
  pose proof (Z.log2_spec N HN) as [L1 L2].
  pose proof (Z.log2_nonneg N).
  split. { split; auto. apply Z.log2_lt_pow2; auto. }
  destruct (Z.eq_dec N (2 ^ Z.log2 N)) as [|NE]; auto. exfalso.
  assert (B : Z.testbit (Z.land N (N - 1)) (Z.log2 N) = true).
  { rewrite Z.land_spec, Z.bit_log2 by lia. simpl.
    replace (Z.log2 N) with (Z.log2 (N - 1)).
    - apply Z.bit_log2; lia.
    - apply Z.log2_unique; lia. }
  rewrite H, Z.bits_0 in B. discriminate.
Qed.

Lemma AlignUpTo_spec' N n :
  align_template_ok N = true -> word N -> word n ->
  (exists m, least_multiple_above N n m /\ m < M64) ->
  least_multiple_above N n (AlignUpTo N n).
Proof.
  intros HN HW Hn (m & (M1 & (j & ->) & _) & M4).
  destruct (align_template_ok_pow2 N HW HN) as [HP H8].
  apply AlignUpTo_spec; auto.
  destruct HP as (k & Hk & ->).
  assert (M64 = 2 ^ (64 - k) * 2 ^ k) by (rewrite <- Z.pow_add_r, M64_pow by lia; f_equal; lia).
  assert (0 < 2 ^ k) by lia. 
  assert (j < 2 ^ (64 - k)) by nia. nia.
Qed.

Lemma AlignUp_spec n b :
  word n -> word b -> 0 < b ->
  (exists m, least_multiple_above b n m /\ m < M64) ->
  exists m, AlignUp n b = Ok m /\ least_multiple_above b n m.
Proof.
  intros [Hn0 Hn] [_ Hb'] Hb (m & (Hm1 & (k & ->) & Hm3) & Hm4).
  exists (k * b). split; [|split; eauto].
  unfold AlignUp. destruct (Z.eqb_spec b 0); [lia|].
  f_equal.
  pose proof (Z.div_mod n b ltac:(lia)) as D.
  pose proof (Z.mod_pos_bound n b Hb) as R.
  pose proof (Z.div_pos n b Hn0 Hb) as Q.
  pose proof (Z.mod_le n b Hn0 Hb) as R2.
  set (q := n / b) in *. set (r := n mod b) in *.
  rewrite (sub64_small n r) by lia.
  destruct (Z.eqb_spec r 0) as [E|E]; simpl.
  - rewrite mul64_small by lia. rewrite add64_small by lia.
    assert (k * b <= q * b) by (apply Hm3; [lia|eauto]). nia.
  - rewrite mul64_small by lia.
    assert (Hk : k * b <= (q + 1) * b) by (apply Hm3; [lia|eauto]).
    assert (k * b = (q + 1) * b).
    { destruct (Z_lt_le_dec k (q + 1)); nia. }
    rewrite add64_small by lia. nia.
Qed.

(** Literals *)
Lemma is_digit_spec c : is_digit c = true <-> 48 <= c <= 57.
Proof. unfold is_digit. rewrite andb_true_iff, !Z.leb_le. lia. Qed.

Lemma decimal_value_bounds str :
  decimal_text str -> 0 <= decimal_value str < 10 ^ Z.of_nat (length str).
Proof.
  induction 1 as [|c r Hc _ IH]; [simpl; lia|].
  cbn [decimal_value length]. rewrite Nat2Z.inj_succ, Z.pow_succ_r by lia. nia.
Qed.

Lemma stoi_impl_mod str : forall v,
  decimal_text str ->
  stoi_impl str v = Some ((match str with [] => v | _ => (v * 10 ^ Z.of_nat (length str) + decimal_value str) mod M64 end)).
Proof.
  induction str as [|c r IH]; intros v H; [reflexivity|].
  inversion H; subst. cbn [stoi_impl].
  rewrite (proj2 (is_digit_spec c)) by auto.
  rewrite IH by auto. f_equal.
  assert (E : forall x y, (x mod M64 + y) mod M64 = (x + y) mod M64) by (intros; apply Zplus_mod_idemp_l).
  unfold add64, mul64. rewrite Zplus_mod_idemp_l, Zplus_mod_idemp_r.
  destruct r as [|d r].
  - simpl. f_equal. lia.
  - set (l := d :: r) in *.
    rewrite <- (Zplus_mod_idemp_l (_ * 10 ^ Z.of_nat (length l))).
    rewrite Zmult_mod_idemp_l, Zplus_mod_idemp_l.
    f_equal. cbn [decimal_value length]. rewrite Nat2Z.inj_succ, Z.pow_succ_r by lia. 
    fold l. ring.
Qed.

Lemma stoi_mod str : decimal_text str -> stoi str = Some (decimal_value str mod M64).
Proof.
  intros H. unfold stoi. rewrite stoi_impl_mod by auto. destruct str; auto.
Qed.

Lemma stoi_reject str : ~ decimal_text str -> stoi str = None.
Proof.
  unfold stoi. generalize 0. induction str as [|c r IH]; intros v H.
  - exfalso; apply H; constructor.
  - cbn. destruct (is_digit c) eqn:E; auto.
    apply IH. intros D. apply H. constructor; auto. now apply is_digit_spec.
Qed.

Lemma literals_mod str :
  decimal_text str ->
  lit_KB str = Some ((decimal_value str * 1024) mod M64) /\
  lit_MB str = Some ((decimal_value str * 1024 ^ 2) mod M64) /\
  lit_GB str = Some ((decimal_value str * 1024 ^ 3) mod M64).
Proof.
  intros H. unfold lit_KB, lit_MB, lit_GB. rewrite stoi_mod by auto. cbn [option_map].
  change kilo with 1024. unfold mul64.
  repeat rewrite Zmult_mod_idemp_l.
  replace (1024 ^ 2) with (1024 * 1024) by reflexivity.
  replace (1024 ^ 3) with (1024 * (1024 * 1024)) by reflexivity.
  rewrite !Z.mul_assoc. auto.
Qed.

Lemma literals_exact str :
  decimal_text str ->
  (decimal_value str * 1024 < M64 -> lit_KB str = Some (decimal_value str * 1024)) /\
  (decimal_value str * 1024 ^ 2 < M64 -> lit_MB str = Some (decimal_value str * 1024 ^ 2)) /\
  (decimal_value str * 1024 ^ 3 < M64 -> lit_GB str = Some (decimal_value str * 1024 ^ 3)).
Proof.
  intros H. destruct (literals_mod str H) as (-> & -> & ->).
  pose proof (decimal_value_bounds str H).
  repeat split; intros; f_equal; apply Z.mod_small; nia.
Qed.

Lemma literals_reject str :
  ~ decimal_text str -> lit_KB str = None /\ lit_MB str = None /\ lit_GB str = None.
Proof. intros H. unfold lit_KB, lit_MB, lit_GB. now rewrite stoi_reject. Qed.
