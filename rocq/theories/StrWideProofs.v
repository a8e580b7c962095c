(** The fill loop. *)
Require Import ZArith List Bool Lia.
From Verif Require Import Base StrSpec StrModel StrFindModel StrWideModel.
Import ListNotations.
Open Scope Z_scope.

Definition filled (m m' : Z -> option Z) (b e c : Z) : Prop := forall i, m' i = if (b <=? i) && (i <? e) then Some c else m i.
Lemma filled_trans m m1 m2 b x e c : b <= x <= e -> filled m m1 b x c -> filled m1 m2 x e c -> filled m m2 b e c.
Proof.
  intros H F G i. rewrite G, F. destruct (Z.leb_spec x i), (Z.ltb_spec i e), (Z.leb_spec b i), (Z.ltb_spec i x); cbn [andb]; try lia; reflexivity.
Qed.
Lemma filled_none m b c : filled m m b b c.
Proof. intros i. destruct (Z.leb_spec b i), (Z.ltb_spec i b); cbn [andb]; try lia; reflexivity. Qed.
Lemma filled_one m b c : filled m (put_char m b c) b (b + 1) c.
Proof. intros i. unfold put_char. destruct (Z.eqb_spec i b), (Z.leb_spec b i), (Z.ltb_spec i (b + 1)); cbn [andb]; try lia; reflexivity. Qed.
Lemma put8_ok k : forall m b c, filled m (put8 k m b c) b (b + Z.of_nat k) c.
Proof.
  induction k as [|k IH]; intros m b c; cbn [put8].
  - rewrite Z.add_0_r. apply filled_none.
  - eapply filled_trans; [|apply filled_one|]; [lia|]. replace (b + Z.of_nat (S k)) with (b + 1 + Z.of_nat k) by lia. apply IH.
Qed.
Lemma loop8_ok fuel : forall m b q c, 0 <= q <= Z.of_nat fuel ->
  exists m', loop8 fuel m b (b + 8 * q) c = Some (m', b + 8 * q) /\ filled m m' b (b + 8 * q) c.
Proof.
  induction fuel as [|fuel IH]; intros m b q c H; cbn [loop8]; destruct (Z.eqb_spec b (b + 8 * q)) as [E|E].
  - exists m. replace (b + 8 * q) with b by lia. split; [reflexivity|apply filled_none].
  - lia.
  - exists m. replace (b + 8 * q) with b by lia. split; [reflexivity|apply filled_none].
  - destruct (IH (put8 8 m b c) (b + 8) (q - 1) c ltac:(lia)) as (m' & L & F). replace (b + 8 + 8 * (q - 1)) with (b + 8 * q) in * by lia.
    exists m'. split; [exact L|]. eapply filled_trans; [|apply (put8_ok 8)|exact F]. change (Z.of_nat 8) with 8. lia.
Qed.
Lemma loop1_ok fuel : forall m b e c, 0 <= e - b <= Z.of_nat fuel -> exists m', loop1 fuel m b e c = Some m' /\ filled m m' b e c.
Proof.
  induction fuel as [|fuel IH]; intros m b e c H; cbn [loop1]; destruct (Z.eqb_spec b e) as [E|E].
  - exists m. subst e. split; [reflexivity|apply filled_none].
  - lia.
  - exists m. subst e. split; [reflexivity|apply filled_none].
  - destruct (IH (put_char m b c) (b + 1) e c ltac:(lia)) as (m' & L & F).
    exists m'. split; [exact L|]. eapply filled_trans; [|apply filled_one|exact F]. lia.
Qed.
Lemma not7_land n : 0 <= n -> exists q, 0 <= 8 * q <= n /\ Z.land n not7 = 8 * q.
Proof.
  intros H. assert (E : Z.land n not7 = 8 * ((n mod 2 ^ 32) / 8)).
  { replace (8 * (n mod 2 ^ 32 / 8)) with (Z.shiftl (Z.shiftr (Z.land n (Z.ones 32)) 3) 3).
    2:{ rewrite Z.shiftl_mul_pow2, Z.shiftr_div_pow2, Z.land_ones by lia. change (2 ^ 3) with 8. lia. }
    apply Z.bits_inj'. intros i Hi. rewrite Z.shiftl_spec, Z.land_spec by lia.
    unfold not7. change (2 ^ 32 - 1) with (Z.ones 32). rewrite Z.lxor_spec.
    assert (S7 : Z.testbit 7 i = (i <? 3)).
    { change 7 with (Z.ones 3). destruct (Z.ltb_spec i 3); [apply Z.ones_spec_low; lia|apply Z.ones_spec_high; lia]. }
    rewrite S7. destruct (Z.ltb_spec i 3).
    - rewrite (Z.ones_spec_low 32 i) by lia. rewrite (Z.testbit_neg_r _ (i - 3)) by lia. apply andb_false_r.
    - rewrite Z.shiftr_spec by lia. replace (i - 3 + 3) with i by lia. rewrite Z.land_spec, xorb_false_r. reflexivity. }
  exists ((n mod 2 ^ 32) / 8). split; [|exact E].
  pose proof (Z.mod_pos_bound n (2 ^ 32)) as B1. pose proof (Z.mod_le n (2 ^ 32)) as B2. pose proof (Z.mul_div_le (n mod 2 ^ 32) 8) as B3. pose proof (Z.div_pos (n mod 2 ^ 32) 8) as B4. lia.
Qed.
Lemma pod_fill_ok fuel m b e c : 0 <= e - b < M64 -> e - b <= Z.of_nat fuel ->
  exists m', pod_fill fuel m b e c = Some m' /\ filled m m' b e c.
Proof.
  intros H L. unfold pod_fill. rewrite Z.mod_small by exact H. destruct (not7_land (e - b)) as (q & Q & ->); [lia|].
  destruct (loop8_ok fuel m b q c) as (m1 & E1 & F1); [lia|]. rewrite E1.
  destruct (loop1_ok fuel m1 (b + 8 * q) e c) as (m2 & E2 & F2); [lia|].
  exists m2. split; [exact E2|]. eapply filled_trans; [|exact F1|exact F2]. lia.
Qed.
