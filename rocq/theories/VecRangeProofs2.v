Require Import ZArith List Bool Lia.
From Verif Require Import Base BaseProofs VecSpec VecModel VecStatements VecCases VecProofs VecProofs4 VecRangeModel VecRangeSpec VecRangeProofs.
Import ListNotations.
Open Scope Z_scope.

Section New.
Variables (dbg : bool) (mal : Z -> bool) (sz : Z).
Hypothesis SZ : 0 < sz.

Lemma malloc_some n : 0 < n -> n * sz < M64 -> mal (n * sz) = true ->
  allocate sz dbg mal n = Ok (Some {| b_len := n; b_at := fun _ => Raw |}).
Proof.
  intros H H1 M. unfold allocate. rewrite assert_ok by now apply Z.ltb_lt. cbn [bind]. unfold malloc.
  assert (E : mul64 n sz = n * sz) by (unfold mul64; apply Z.mod_small; nia).
  rewrite E, M, Z.div_mul by lia. reflexivity.
Qed.
Lemma new_range l : 0 < len l -> len l * sz < M64 -> mal (len l * sz) = true ->
  exists s', vstep KTriv sz dbg mal vinit (VNewRange l) = Ok (s', Done 0) /\ contents 0 s' = Ok l.
Proof.
  intros H H1 M. cbn [vstep vinit vacct vs]. rewrite (proj2 (Z.ltb_lt 0 (len l)) H), malloc_some by assumption. cbn [bind].
  destruct (write_list_ok KTriv l {| b_len := len l; b_at := fun _ => Raw |} no_acct 0) as (b' & a' & E & _ & [LB _] & F).
  { lia. } { cbn. lia. } { intros j Hj. cbn. auto. }
  unfold copy_from_iterator. rewrite !assert_ok by (destruct l; [cbn in H; lia|reflexivity]). cbn [bind].
  rewrite E. cbn [bind]. unfold vpush. eexists. split; [reflexivity|]. unfold contents, vget. cbn.
  replace (Z.to_nat (len l)) with (length l) by (unfold len; lia). apply read_all_ok; [lia|rewrite LB; cbn; lia|].
  intros j Hj. apply F. lia.
Qed.

Definition right (it : iters) (m : bytes) (l : list Z) : Prop :=
  exists s', rstep KTriv sz dbg mal m vinit (RNew it) = Ok (s', Done 0) /\ contents 0 s' = Ok l.

Variable it : iters.
Hypothesis P : it_pointer it = true.
Hypothesis N : 0 < it_count it.
Hypothesis FIT : it_count it * sz < M64.
Hypothesis M : mal (it_count it * sz) = true.

(** Nothing is copied: the elements are there but have no value. *)
Lemma new_nothing m : it_at it (it_count it) <= it_at it 0 ->
  exists s', rstep KTriv sz dbg mal m vinit (RNew it) = Ok (s', Done 0) /\ size_of 0 s' = Ok (it_count it) /\ contents 0 s' = Undef.
Proof.
  intros GE. cbn [rstep vinit vacct]. rewrite (proj2 (Z.ltb_lt 0 (it_count it)) N), malloc_some by assumption. cbn [bind].
  unfold copy_iters. rewrite P. cbn [is_relocatable andb]. rewrite (proj2 (Z.ltb_ge _ _) GE).
  rewrite !assert_ok; [|apply negb_true_iff, Z.eqb_neq; lia|reflexivity]. cbn [bind]. unfold vpush.
  eexists. split; [reflexivity|]. split; [reflexivity|]. unfold contents, vget. cbn.
  replace (Z.to_nat (it_count it)) with (S (Z.to_nat (it_count it - 1))) by lia. cbn [read_all].
  unfold read, get. cbn [b_len b_at]. rewrite (proj2 (Z.ltb_lt 0 (it_count it)) N). reflexivity.
Qed.

Lemma block_length m : forall n p l, block_copy sz m p n = Ok l -> length l = n.
Proof.
  induction n as [|n IH]; intros p l E; cbn [block_copy] in E; [injection E as <-; reflexivity|].
  destruct (load m p (Z.to_nat sz)); try discriminate. cbn [bind] in E.
  destruct (block_copy sz m (p + sz) n) eqn:R; try discriminate. cbn [bind] in E. injection E as <-. cbn. f_equal. eauto.
Qed.
(** What is copied. *)
Lemma new_block m l : it_at it 0 < it_at it (it_count it) -> right it m l ->
  block_copy sz m (it_at it 0) (Z.to_nat (it_count it)) = Ok l.
Proof.
  intros LT (s' & E & C).
  destruct (block_copy sz m (it_at it 0) (Z.to_nat (it_count it))) as [l'| |] eqn:B.
  - f_equal. pose proof (block_length _ _ _ _ B) as L.
    assert (CP : copies KTriv sz dbg m it l').
    { intros ob a i. unfold copy_iters. rewrite P. cbn [is_relocatable andb]. rewrite (proj2 (Z.ltb_lt _ _) LT), B. cbn [bind].
      replace (it_count it) with (len l') by (unfold len; lia). apply copy_again. }
    rewrite (step_copies KTriv sz dbg mal m (RNew it) l' vinit) in E; [|cbn; unfold len; lia|auto]. cbn [with_values] in E.
    destruct (new_range l') as (s2 & E2 & C2); [unfold len; lia|unfold len; rewrite L, Z2Nat.id by lia; exact FIT|unfold len; rewrite L, Z2Nat.id by lia; exact M|].
    rewrite E in E2. injection E2 as <-. congruence.
  - exfalso. cbn [rstep vinit vacct] in E. rewrite (proj2 (Z.ltb_lt 0 (it_count it)) N), malloc_some in E by assumption. cbn [bind] in E.
    unfold copy_iters in E. rewrite P in E. cbn [is_relocatable andb] in E. rewrite (proj2 (Z.ltb_lt _ _) LT), B in E.
    rewrite !assert_ok in E; [|apply negb_true_iff, Z.eqb_neq; lia|reflexivity]. cbn in E. discriminate.
  - exfalso. cbn [rstep vinit vacct] in E. rewrite (proj2 (Z.ltb_lt 0 (it_count it)) N), malloc_some in E by assumption. cbn [bind] in E.
    unfold copy_iters in E. rewrite P in E. cbn [is_relocatable andb] in E. rewrite (proj2 (Z.ltb_lt _ _) LT), B in E.
    rewrite !assert_ok in E; [|apply negb_true_iff, Z.eqb_neq; lia|reflexivity]. cbn in E. discriminate.
Qed.
Lemma block_nth m : forall n p l i, block_copy sz m p n = Ok l -> (i < n)%nat ->
  exists x, load m (p + Z.of_nat i * sz) (Z.to_nat sz) = Ok x /\ nth_error l i = Some x.
Proof.
  induction n as [|n IH]; intros p l i E H; [lia|]. cbn [block_copy] in E.
  destruct (load m p (Z.to_nat sz)) as [x| |] eqn:L; try discriminate. cbn [bind] in E.
  destruct (block_copy sz m (p + sz) n) as [r| |] eqn:R; try discriminate. cbn [bind] in E. injection E as <-.
  destruct i as [|i].
  - exists x. replace (p + Z.of_nat 0 * sz) with p by lia. auto.
  - destruct (IH _ _ i R ltac:(lia)) as (y & A & B). exists y. split; [|exact B].
    replace (p + Z.of_nat (S i) * sz) with (p + sz + Z.of_nat i * sz) by lia. exact A.
Qed.

Lemma all_load m : all_bytes m -> forall n p, exists v, load m p n = Ok v.
Proof.
  intros A. induction n as [|n IH]; intros p; [exists 0; reflexivity|]. cbn [load]. destruct (A p) as (x & -> & _).
  destruct (IH (p + 1)) as (v & ->). cbn. eauto.
Qed.
Lemma all_yields m : all_bytes m -> exists l, yields m it l.
Proof.
  intros A. assert (G : forall n i, exists l, walk m it i n = Ok l).
  { induction n as [|n IH]; intros i; cbn [walk]; [eauto|]. destruct (all_load m A (Z.to_nat (it_size it)) (it_at it i)) as (v & ->). cbn [bind].
    destruct (IH (i + 1)) as (r & ->). cbn. eauto. }
  destruct (G (Z.to_nat (it_count it)) 0) as (l & E). exists l. apply walk_yields; [lia|exact E].
Qed.
Lemma object_head m p n v : object m p (S n) v -> exists x r, m p = Some x /\ v = x + 256 * r.
Proof. inversion 1. eauto. Qed.
Lemma object_fun m n p v w : object m p n v -> object m p n w -> v = w.
Proof. intros A B. apply load_object in A, B. congruence. Qed.

Lemma right_if m l : bytes_only m -> of_same_type sz it -> it_at it 0 < it_at it (it_count it) ->
  (forall i, 0 <= i < it_count it -> it_at it i = it_at it 0 + i * sz) -> yields m it l -> right it m l.
Proof.
  intros B S LT C Y. unfold right. pose proof (proj1 Y) as L.
  rewrite (step_copies KTriv sz dbg mal m (RNew it) l vinit); [|exact L|].
  - apply new_range; rewrite L; assumption.
  - intros _. apply copies_block; auto.
Qed.

(** The value of every object is that of the bytes at the place memcpy takes them from. *)
Lemma right_only m l i : it_at it 0 < it_at it (it_count it) -> yields m it l -> right it m l -> 0 <= i < it_count it ->
  exists x y, object m (it_at it i) (Z.to_nat (it_size it)) x /\ object m (it_at it 0 + i * sz) (Z.to_nat sz) y /\ it_conv it x = y.
Proof.
  intros LT [_ Y] R Hi. apply (new_block m l LT) in R. destruct (Y i Hi) as (x & v & O & E & V).
  destruct (block_nth m _ _ _ (Z.to_nat i) R ltac:(lia)) as (y & A & B). rewrite Z2Nat.id in A by lia.
  exists x, y. split; [exact O|]. split; [now apply load_object|]. congruence.
Qed.

Theorem exactly : of_same_type sz it ->
  (forall m l, all_bytes m -> yields m it l -> right it m l) <->
  it_at it 0 < it_at it (it_count it) /\ forall i, 0 <= i < it_count it -> it_at it i = it_at it 0 + i * sz.
Proof.
  intros S. split.
  - intros H. assert (LT : it_at it 0 < it_at it (it_count it)).
    { destruct (Z_lt_le_dec (it_at it 0) (it_at it (it_count it))) as [|GE]; [assumption|exfalso].
      set (m := fun _ : Z => Some 0). assert (A : all_bytes m) by (intros p; exists 0; split; [reflexivity|unfold is_byte; lia]).
      destruct (all_yields m A) as (l & Y). destruct (H m l A Y) as (s' & E & C).
      destruct (new_nothing m GE) as (s2 & E2 & _ & U). congruence. }
    split; [exact LT|]. intros i Hi. destruct (Z.eq_dec (it_at it i) (it_at it 0 + i * sz)) as [|NE]; [assumption|exfalso].
    set (m := fun p : Z => Some (if p =? it_at it i then 1 else 0)).
    assert (A : all_bytes m) by (intros p; eexists; split; [reflexivity|unfold is_byte; destruct (p =? it_at it i); lia]).
    assert (BO : bytes_only m) by (intros p x; unfold m; intros E; injection E as <-; unfold is_byte; destruct (p =? it_at it i); lia).
    destruct (all_yields m A) as (l & Y). destruct (right_only m l i LT Y (H m l A Y) Hi) as (x & y & O1 & O2 & E).
    destruct S as [S1 S2]. rewrite S1 in O1. rewrite S2 in E.
    2:{ apply (object_range m BO) in O1. rewrite Z2Nat.id in O1 by lia. exact O1. }
    subst y. replace (Z.to_nat sz) with (Datatypes.S (Z.to_nat (sz - 1))) in O1, O2 by lia.
    apply object_head in O1, O2. destruct O1 as (b1 & r1 & B1 & V1), O2 as (b2 & r2 & B2 & V2).
    unfold m in B1, B2. rewrite Z.eqb_refl in B1. rewrite (proj2 (Z.eqb_neq _ _)) in B2 by congruence.
    injection B1 as <-. injection B2 as <-. lia.
  - intros [LT C] m l A Y. apply right_if; auto. intros p x E. destruct (A p) as (x' & E' & B). congruence.
Qed.

(** Bytes of [x] at [q]. *)
Definition poked (q x : Z) : bytes := fun p => Some (if (q <=? p) && (p <? q + sz) then x / 256 ^ (p - q) mod 256 else 0).
Lemma poked_object q x : forall n d, 0 <= d -> d + Z.of_nat n = sz -> object (poked q x) (q + d) n (x / 256 ^ d mod 256 ^ Z.of_nat n).
Proof.
  induction n as [|n IH]; intros d D E.
  - cbn [Z.of_nat Z.pow]. rewrite Z.mod_1_r. constructor.
  - assert (EQ : x / 256 ^ d mod 256 ^ Z.of_nat (S n) = x / 256 ^ d mod 256 + 256 * (x / 256 ^ (d + 1) mod 256 ^ Z.of_nat n)).
    { rewrite Nat2Z.inj_succ, Z.pow_succ_r by lia. rewrite Z.rem_mul_r by lia. rewrite Z.pow_add_r by lia.
      rewrite Z.div_div by lia. reflexivity. }
    rewrite EQ. constructor.
    + unfold poked. replace ((q <=? q + d) && (q + d <? q + sz)) with true; [replace (q + d - q) with d by lia; reflexivity|].
      symmetry. apply andb_true_iff. split; [apply Z.leb_le|apply Z.ltb_lt]; lia.
    + rewrite <- Z.add_assoc. apply IH; lia.
Qed.
Theorem conversion : it_size it = sz -> it_at it 0 < it_at it (it_count it) ->
  (forall i, 0 <= i < it_count it -> it_at it i = it_at it 0 + i * sz) ->
  ((forall m l, all_bytes m -> yields m it l -> right it m l) <-> forall x, 0 <= x < 256 ^ sz -> it_conv it x = x).
Proof.
  intros S LT C. split.
  - intros H x Hx. set (m := poked (it_at it 0) x).
    assert (A : all_bytes m).
    { intros p. eexists. split; [reflexivity|]. unfold is_byte. destruct (_ && _); [|lia]. apply Z.mod_pos_bound. lia. }
    destruct (all_yields m A) as (l & Y). destruct (right_only m l 0 LT Y (H m l A Y) ltac:(lia)) as (u & v & O1 & O2 & E).
    rewrite S in O1. rewrite Z.add_0_r in O2. pose proof (object_fun _ _ _ _ _ O1 O2). subst v.
    pose proof (poked_object (it_at it 0) x (Z.to_nat sz) 0 ltac:(lia) ltac:(lia)) as O. rewrite Z.add_0_r, Z.pow_0_r, Z.div_1_r in O.
    rewrite Z2Nat.id, Z.mod_small in O by lia. pose proof (object_fun _ _ _ _ _ O1 O). congruence.
  - intros I m l A Y. apply right_if; auto; [|split; assumption]. intros p x E. destruct (A p) as (x' & E' & B). congruence.
Qed.
End New.
