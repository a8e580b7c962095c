Require Import ZArith List Bool Lia.
From Verif Require Import Base BaseProofs VecSpec VecModel VecStatements VecProofs VecRangeModel VecRangeSpec.
Import ListNotations.
Open Scope Z_scope.

Lemma load_object m : forall n p v, load m p n = Ok v <-> object m p n v.
Proof.
  induction n as [|n IH]; intros p v; cbn [load].
  - split; [injection 1 as <-; constructor|]. inversion 1. reflexivity.
  - split.
    + destruct (m p) as [x|] eqn:E; [|discriminate]. destruct (load m (p + 1) n) as [r| |] eqn:L; try discriminate.
      cbn. injection 1 as <-. constructor; [exact E|]. now apply IH.
    + intros O. inversion O as [|? ? x r E O']; subst. rewrite E. apply IH in O'. now rewrite O'.
Qed.
Lemma object_range m : bytes_only m -> forall n p v, object m p n v -> 0 <= v < 256 ^ Z.of_nat n.
Proof.
  intros B. induction 1 as [|p n x v E O IH]; [cbn; lia|]. apply B in E. unfold is_byte in E.
  rewrite Nat2Z.inj_succ, Z.pow_succ_r by lia. lia.
Qed.

Lemma walk_ok m it : forall n i l, length l = n ->
  (forall j, 0 <= j < Z.of_nat n -> exists x v, object m (it_at it (i + j)) (Z.to_nat (it_size it)) x /\ nth_error l (Z.to_nat j) = Some v /\ v = it_conv it x) ->
  walk m it i n = Ok l.
Proof.
  induction n as [|n IH]; intros i l L H.
  - destruct l; [reflexivity|discriminate].
  - destruct l as [|y l]; [discriminate|]. injection L as L. cbn [walk].
    destruct (H 0 ltac:(lia)) as (x & v & O & N & V). rewrite Z.add_0_r in O. apply load_object in O. rewrite O. cbn.
    cbn in N. injection N as ->. rewrite (IH (i + 1) l L); [subst v; reflexivity|].
    intros j Hj. destruct (H (j + 1) ltac:(lia)) as (x' & v' & O' & N' & V'). exists x', v'.
    replace (i + 1 + j) with (i + (j + 1)) by lia. repeat split; auto.
    replace (Z.to_nat (j + 1)) with (S (Z.to_nat j)) in N' by lia. exact N'.
Qed.
Lemma yields_walk m it l : yields m it l -> walk m it 0 (Z.to_nat (it_count it)) = Ok l.
Proof.
  intros [L H]. unfold len in L. apply walk_ok; [lia|]. intros j Hj. rewrite Z.add_0_l. apply H. lia.
Qed.
Lemma walk_yields m it l : 0 <= it_count it -> walk m it 0 (Z.to_nat (it_count it)) = Ok l -> yields m it l.
Proof.
  intros C W.
  assert (G : forall n i l, walk m it i n = Ok l -> length l = n /\ forall j, 0 <= j < Z.of_nat n ->
    exists x v, object m (it_at it (i + j)) (Z.to_nat (it_size it)) x /\ nth_error l (Z.to_nat j) = Some v /\ v = it_conv it x).
  { induction n as [|n IH]; intros i l0 E; cbn [walk] in E.
    - injection E as <-. split; [reflexivity|]. intros j Hj. lia.
    - destruct (load m (it_at it i) _) as [x| |] eqn:L; try discriminate. cbn [bind] in E.
      destruct (walk m it (i + 1) n) as [r| |] eqn:R; try discriminate. cbn [bind] in E. injection E as <-.
      destruct (IH _ _ R) as [LL H]. split; [cbn; congruence|]. intros j Hj.
      destruct (Z.eq_dec j 0) as [->|NZ].
      + exists x, (it_conv it x). rewrite Z.add_0_r. apply load_object in L. repeat split; auto.
      + destruct (H (j - 1) ltac:(lia)) as (x' & v' & O' & N' & V'). exists x', v'.
        replace (i + j) with (i + 1 + (j - 1)) by lia. repeat split; auto.
        replace (Z.to_nat j) with (S (Z.to_nat (j - 1))) by lia. exact N'. }
  destruct (G _ _ _ W) as [LL H]. split; [unfold len; lia|]. intros i Hi.
  destruct (H i ltac:(lia)) as (x & v & O). rewrite Z.add_0_l in O. eauto.
Qed.

Lemma block_walk sz m it : bytes_only m -> 0 <= sz -> of_same_type sz it ->
  forall n i, (forall j, 0 <= j < Z.of_nat n -> it_at it (i + j) = it_at it i + j * sz) ->
  block_copy sz m (it_at it i) n = walk m it i n.
Proof.
  intros B P [S C]. induction n as [|n IH]; intros i H; [reflexivity|]. cbn [block_copy walk]. rewrite S.
  destruct (load m (it_at it i) (Z.to_nat sz)) as [x| |] eqn:L; try reflexivity. cbn [bind].
  assert (X : it_conv it x = x).
  { apply C. apply load_object in L. apply (object_range m B) in L. rewrite Z2Nat.id in L by lia. exact L. }
  rewrite X. destruct n as [|n]; [reflexivity|].
  assert (A1 : it_at it (i + 1) = it_at it i + sz) by (rewrite (H 1) by lia; lia). rewrite <- A1.
  rewrite IH; [reflexivity|]. intros j Hj. replace (i + 1 + j) with (i + (j + 1)) by lia. rewrite H by lia. rewrite A1. lia.
Qed.

Section Steps.
Variable k : kind.
Variable sz : Z.
Variable dbg : bool.
Variable mal : Z -> bool.
Variable m : bytes.

(** How the values get there does not matter if they do. *)
Definition copies (it : iters) (l : list Z) : Prop := forall ob a i,
  copy_iters k sz dbg m ob a i it = copy_from_iterator k dbg ob a i l.

Lemma null_assert (ob : option buf) (l : list Z) {A} (f : res A) :
  (do _ <- assert dbg (match ob with Some _ => true | None => false end);
   do _ <- assert dbg (negb (match l with [] => true | _ => false end)); f) =
  (do _ <- assert dbg (match ob with Some _ => true | None => false end);
   do _ <- assert dbg (negb (len l =? 0)); f).
Proof. destruct l; [reflexivity|]. replace (len (z :: l) =? 0) with false; [reflexivity|]. symmetry. apply Z.eqb_neq. unfold len. cbn [length]. lia. Qed.
Lemma copy_again ob a i l :
  (do _ <- assert dbg (match ob with Some _ => true | None => false end);
   do _ <- assert dbg (negb (len l =? 0)); copy_from_iterator k dbg ob a i l) = copy_from_iterator k dbg ob a i l.
Proof.
  rewrite <- null_assert. unfold copy_from_iterator, assert.
  destruct ob; cbn [negb andb]; destruct dbg; cbn; destruct l; cbn; reflexivity.
Qed.

Lemma copies_loop it l : is_relocatable k && it_pointer it = false -> yields m it l -> copies it l.
Proof.
  intros E Y ob a i. unfold copy_iters. rewrite E, (yields_walk m it l Y). cbn [bind]. destruct Y as [L _]. rewrite <- L.
  apply copy_again.
Qed.
Lemma copies_block it l : bytes_only m -> 0 < sz -> 0 < it_count it -> of_same_type sz it ->
  it_at it 0 < it_at it (it_count it) -> (forall i, 0 <= i < it_count it -> it_at it i = it_at it 0 + i * sz) ->
  yields m it l -> copies it l.
Proof.
  intros B P N S LT C Y ob a i. destruct (is_relocatable k && it_pointer it) eqn:E.
  - unfold copy_iters. rewrite E. apply Z.ltb_lt in LT. rewrite LT.
    rewrite (block_walk sz m it B ltac:(lia) S); [|intros j Hj; rewrite Z.add_0_l; apply C; lia].
    rewrite (yields_walk m it l Y). cbn [bind]. destruct Y as [L _]. rewrite <- L.
    apply copy_again.
  - now apply copies_loop.
Qed.

Lemma copies_empty it : it_count it = 0 -> copies it [].
Proof.
  intros E ob a i. unfold copy_iters. rewrite E. rewrite Z.ltb_irrefl. cbn [Z.to_nat block_copy walk bind].
  unfold copy_from_iterator. destruct ob; destruct dbg; cbn; try reflexivity.
  all: destruct (is_relocatable k && it_pointer it); destruct k; reflexivity.
Qed.

Lemma step_copies o l s : len l = it_count (range_of o) -> (0 < it_count (range_of o) -> copies (range_of o) l) ->
  rstep k sz dbg mal m s o = vstep k sz dbg mal s (with_values o l).
Proof.
  intros L C0. assert (C : copies (range_of o) l).
  { destruct (Z_lt_le_dec 0 (it_count (range_of o))) as [P|P]; [auto|].
    destruct l; [|unfold len in L; cbn in L; lia]. apply copies_empty. rewrite <- L. reflexivity. }
  clear C0. destruct o as [it|i it|i safe pos it]; cbn [range_of with_values] in *.
  - cbn [rstep vstep]. rewrite L. destruct (0 <? it_count it) eqn:Z0; [|reflexivity]. apply Z.ltb_lt in Z0.
    destruct (allocate sz dbg mal (it_count it)) as [[b|]| |]; cbn [bind]; try reflexivity. now rewrite C.
  - cbn [rstep vstep]. destruct (vget s i) as [v| |]; cbn [bind]; try reflexivity.
    unfold assign_iters, run_uop. destruct v as [b size cap|]; [|reflexivity]. rewrite L.
    destruct (cap <? it_count it) eqn:CN.
    + destruct (realloc_drop_old_data k sz dbg mal b size (vacct s) (it_count it)) as [[[nb|] a1]| |] eqn:RD; cbn [bind]; try reflexivity.
      now rewrite C.
    + destruct (core_clear k dbg b size cap (vacct s)) as [[b1 a1]| |]; cbn [bind]; try reflexivity.
      destruct (0 <? it_count it) eqn:Z0; [|reflexivity]. apply Z.ltb_lt in Z0. now rewrite C.
  - cbn [rstep vstep]. destruct (vget s i) as [v| |]; cbn [bind]; try reflexivity.
    unfold insert_iters, run_uop. destruct v as [b size cap|]; [|reflexivity]. cbv zeta. rewrite L.
    destruct (it_count it =? 0) eqn:Z0; [reflexivity|]. apply Z.eqb_neq in Z0. assert (0 < it_count it) by (unfold len in L; lia).
    destruct (grow_for _ _ _ _ _ _ _ _ _ _ _) as [[[[[[b1 s1] c1] a1] threw] moved]| |]; cbn [bind]; try reflexivity.
    destruct threw; [reflexivity|]. destruct (assert _ _); cbn [bind]; try reflexivity.
    destruct (need b1) as [bf| |]; cbn [bind]; try reflexivity. destruct (_ <? _); [reflexivity|].
    destruct (open_gap _ _ _ _ _ _ _) as [[b2 a2]| |]; cbn [bind]; try reflexivity. now rewrite C.
Qed.
End Steps.
