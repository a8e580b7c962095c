(** Where the characters of arena strings are. *)
Require Import ZArith List Bool Lia Permutation.
From Verif Require Import Base BaseProofs ArenaSpec StrSpec StrModel StrStatements StrProofs StrProofs2 StrProofs9 StrProofs10 StrProofs11 StrArenaModel StrArenaStatements StrArenaProofs StrArenaProofs2.
From Verif Require ArenaModel ArenaStatements ArenaProofs ArenaProofs6.
Import ListNotations.
Open Scope Z_scope.
#[local] Existing Instance Char8.

Lemma pairwise_nth {T} (R : T -> T -> Prop) l : pairwise R l -> forall a b x y, (a < b)%nat -> nth_error l a = Some x -> nth_error l b = Some y -> R x y.
Proof.
  induction 1 as [|z l F P IH]; intros [|a] [|b] x y L X Y; try discriminate; try lia; cbn in *.
  - injection X as <-. rewrite Forall_forall in F. apply F. eapply nth_error_In. exact Y.
  - eapply (IH a b); try eassumption. lia.
Qed.
Lemma nth_combine {X Y} (a : list X) (b : list Y) k x y : nth_error a k = Some x -> nth_error b k = Some y -> nth_error (combine a b) k = Some (x, y).
Proof. revert b k. induction a as [|z a IH]; intros [|w b] [|k] Hx Hy; cbn in *; try discriminate; [congruence|]. apply IH; assumption. Qed.

Section J.
Variables (e : ArenaModel.env) (A : Z) (dbg : bool) (ar : Z) (i j : nat).
Hypothesis HA : block_alignment A.
Hypothesis HG : good_block_alloc A (ArenaModel.e_alloc e).
Hypothesis HAR : ar <> 0.
Notation jreach := (jreach e A dbg ar i j).
Notation jinv := (jreach_inv e A dbg ar i j HA HG HAR).

Lemma J_apart n J : jreach n J -> short n -> exists others, Permutation (ranges J) (buffers j J ++ others) /\ pairwise apart_ranges (buffers j J ++ others).
Proof.
  intros H SH. destruct (jinv n J H SH) as (I1 & I2 & _ & _ & (others & P)). exists others. split; [exact P|].
  eapply ArenaProofs.pairwise_perm; [|exact P|].
  - intros x y. unfold apart_ranges, apart. tauto.
  - apply (ArenaProofs6.P_ranges_disjoint e A HA HG _ I1).
Qed.
Lemma J_all n J : jreach n J -> short n -> length (buffers j J) = length (h_blocks (s_heap (j_strs J))).
Proof. intros H SH. destruct (jinv n J H SH) as (_ & _ & _ & (L & _) & _). unfold buffers. rewrite map_length, combine_length, map_length, L. lia. Qed.
Lemma J_range n J x : jreach n J -> short n -> In x (buffers j J) -> In x (ranges J).
Proof. intros H SH K. destruct (jinv n J H SH) as (_ & _ & _ & _ & (others & P)). eapply Permutation_in; [symmetry; exact P|]. apply in_or_app. auto. Qed.
Lemma J_inside n J k p m : jreach n J -> short n -> In (k, p, m) (buffers j J) ->
  k = j /\ p mod 8 = 0 /\ exists b size, In (b, size) (held (hist (j_arenas J)) j) /\ b + 32 <= p /\ p + m <= b + size.
Proof.
  intros H SH K. pose proof (J_range _ _ _ H SH K) as R. destruct (jinv n J H SH) as (I1 & _ & _ & (_ & F) & _).
  assert (E : k = j /\ In p (j_at J)).
  { unfold buffers in K. apply in_map_iff in K as ((q & w) & E & K). injection E as <- <- <-. split; [reflexivity|]. cbn. eapply in_combine_l. exact K. }
  destruct E as (-> & Hp). split; [reflexivity|]. rewrite Forall_forall in F. split; [apply F, Hp|].
  destruct (ArenaProofs6.P_inside e A HA HG _ _ _ _ I1 R) as (b & size & K1 & _ & K2 & K3). eauto.
Qed.
Lemma J_off_limits n J k p m k' a b : jreach n J -> short n -> In (k, p, m) (buffers j J) ->
  nth_error (ArenaModel.s_arenas (j_arenas J)) k' = Some (Some a) -> In b (ArenaModel.a_blocks a) ->
  apart p m (ArenaModel.b_addr b) 32 /\ apart p m (ArenaModel.b_addr b + ArenaModel.b_limit b) (ArenaModel.b_size b - ArenaModel.b_limit b).
Proof.
  intros H SH K E1 E2. pose proof (J_range _ _ _ H SH K) as R. destruct (jinv n J H SH) as (I1 & _).
  exact (ArenaProofs6.P_off_limits e A HA HG _ _ _ _ _ _ _ I1 R E1 E2).
Qed.

Lemma buffer_nth J k p b : nth_error (j_at J) k = Some p -> nth_error (h_blocks (s_heap (j_strs J))) k = Some b -> nth_error (buffers j J) k = Some (j, p, bytes b).
Proof. intros H1 H2. unfold buffers. erewrite map_nth_error; [|apply nth_combine; [exact H1|apply map_nth_error; exact H2]]. reflexivity. Qed.
Lemma header_pos k : 0 <= header k. Proof. destruct k; cbn; lia. Qed.

Lemma J_stored n J a v v' : jreach n J -> short n -> stored J a v -> stored J a v' -> v = v'.
Proof.
  intros H SH (k & p & b & off & K1 & K2 & K3 & K4 & K5) (k' & p' & b' & off' & L1 & L2 & L3 & L4 & L5).
  assert (X : forall k p b off k' p' b' off', nth_error (j_at J) k = Some p -> nth_error (h_blocks (s_heap (j_strs J))) k = Some b ->
    nth_error (j_at J) k' = Some p' -> nth_error (h_blocks (s_heap (j_strs J))) k' = Some b' -> 0 <= off < bk_len b -> 0 <= off' < bk_len b' ->
    p + header (bk_kind b) + off = p' + header (bk_kind b') + off' -> ~ (k < k')%nat).
  { clear -H SH HA HG HAR. intros k p b off k' p' b' off' K1 K2 L1 L2 K3 L3 E L.
    destruct (J_apart _ _ H SH) as (others & _ & P). apply ArenaProofs.pairwise_app in P as (P & _).
    pose proof (pairwise_nth _ _ P k k' _ _ L (buffer_nth _ _ _ _ K1 K2) (buffer_nth _ _ _ _ L1 L2)) as Q.
    unfold apart_ranges, apart, bytes in Q. cbn in Q. pose proof (header_pos (bk_kind b)). pose proof (header_pos (bk_kind b')). lia. }
  assert (k = k').
  { pose proof (X _ _ _ _ _ _ _ _ K1 K2 L1 L2 K3 L3 ltac:(lia)). pose proof (X _ _ _ _ _ _ _ _ L1 L2 K1 K2 L3 K3 ltac:(lia)). lia. }
  subst k'. rewrite K1 in L1. injection L1 as <-. rewrite K2 in L2. injection L2 as <-. subst v v'. f_equal. lia.
Qed.

Lemma kind_of mal n s k c : mal_sane mal -> reach dbg true mal ar n s -> short n -> sget (s_objs s) k = Some c -> category c <> is_small ->
  exists b, blk (s_heap s) (c_data c) = Some b /\ header (bk_kind b) = if category c =? is_medium then 0 else 8.
Proof.
  intros MS H SH Ec NS. destruct (reach_world dbg true mal ar n s MS (AO dbg ar HAR) H SH) as (_ & vs & Ws).
  destruct (world_rep _ _ _ _ _ _ _ _ _ Ws Ec) as (l & _ & RP & _). destruct (rep_heapy _ _ _ RP) as (b & cap & HR).
  { unfold heapy. destruct (Z.eqb_spec (category c) is_small); [contradiction|reflexivity]. }
  destruct HR as (Bk & _ & _ & _ & _ & _ & _ & C). exists b. split; [exact Bk|].
  destruct (bk_kind b); [rewrite (cat_medium _ _ C)|rewrite (cat_large _ _ C)]; reflexivity.
Qed.
Lemma J_text n J vs k c l : jreach n J -> short n -> sees (j_strs J) vs -> sget (s_objs (j_strs J)) k = Some c -> sget vs k = Some l -> category c <> is_small ->
  exists p q m, data_address J c = Some p /\ text_at J p (l ++ [0]) /\ In (j, q, m) (buffers j J) /\ q <= p /\ p + slen l + 1 <= q + m.
Proof.
  intros H SH (_ & SE) Ec El NS. specialize (SE k). rewrite Ec, El in SE. destruct SE as (S1 & S2 & S3).
  destruct (jinv n J H SH) as (_ & _ & (ans & RE & _) & (LE & _) & _).
  destruct (kind_of _ _ _ _ _ (granted_sane ans) RE SH Ec NS) as (b0 & B0 & HB).
  unfold value, after_last, data in *. destruct (Z.eqb_spec (category c) is_small); [contradiction|]. rewrite S1 in *.
  cbn [read ptr_add] in S2, S3. destruct (blk (s_heap (j_strs J)) (c_data c)) as [b|] eqn:B; [|discriminate].
  injection B0 as <-. destruct (in_blk b 0 (slen l)) eqn:E1; [|discriminate]. injection S2 as S2.
  destruct (in_blk b (0 + slen l) 1) eqn:E2; [|discriminate]. cbn in S3.
  unfold in_blk in E2. rewrite !andb_true_iff, !Z.leb_le in E2. unfold blk in B. destruct (c_data c <? 0); [discriminate|].
  destruct (nth_error (j_at J) (Z.to_nat (c_data c))) as [q|] eqn:Q.
  2:{ apply nth_error_None in Q. assert (nth_error (h_blocks (s_heap (j_strs J))) (Z.to_nat (c_data c)) <> None) as B' by congruence.
      apply nth_error_Some in B'. lia. }
  exists (q + header (bk_kind b)), q, (bytes b). pose proof (header_pos (bk_kind b)).
  split; [unfold data_address; rewrite Q, HB; destruct (Z.eqb_spec (category c) is_small); [contradiction|]; destruct (category c =? is_medium); f_equal; lia|].
  split; [|split; [eapply nth_error_In, buffer_nth; eassumption|unfold bytes; lia]].
  intros m x K. assert (LM : Z.of_nat m <= slen l).
  { assert (m < length (l ++ [0%Z]))%nat by (apply nth_error_Some; congruence). rewrite app_length in *. unfold slen. cbn in *. lia. }
  exists (Z.to_nat (c_data c)), q, b, (Z.of_nat m). split; [exact Q|]. split; [exact B|]. split; [lia|]. split; [lia|].
  destruct (Z.eq_dec (Z.of_nat m) (slen l)) as [EQ|NE].
  - rewrite nth_error_app2 in K by (unfold slen in EQ; lia). replace (m - length l)%nat with 0%nat in K by (unfold slen in EQ; lia). injection K as <-.
    rewrite EQ. change (Pos.to_nat 1) with 1%nat in S3. cbn in S3. rewrite <- S3. f_equal. lia.
  - rewrite nth_error_app1 in K by (unfold slen in *; lia). apply (map_nth_error Some) in K. rewrite <- S2 in K. unfold chars_from in K.
    rewrite nth_error_map in K. destruct (nth_error (seq 0 (Z.to_nat (slen l))) m) as [w|] eqn:W; [|discriminate]. cbn [option_map] in K. injection K as K.
    assert (w = m). { apply (nth_error_nth _ _ 0%nat) in W. rewrite seq_nth in W; [lia|]. unfold slen in *. lia. } subst w.
    rewrite <- K. reflexivity.
Qed.
End J.
