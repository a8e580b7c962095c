(** A text assigned from its own reverse iterators. *)
Require Import ZArith List Bool Lia.
From Verif Require Import Base BaseProofs StrSpec StrModel StrStatements StrProofs StrProofs8 StrProofs9 StrProofs12 StrRangeModel StrRangeSpec StrRangeProofs2.
Import ListNotations.
Open Scope Z_scope.

Definition back (i n k : nat) : cell := CharOf i (Z.of_nat n - 1 - Z.of_nat k).
Lemma nth_error_put {A} (a : nat) (v : A) (t : list A) k : (a < length t)%nat ->
  nth_error (splice (Z.of_nat a) 1 [v] t) k = if Nat.eqb k a then Some v else nth_error t k.
Proof.
  intros H. unfold splice, stake, sdrop. rewrite Nat2Z.id. replace (Z.to_nat (Z.of_nat a + 1)) with (S a) by lia.
  assert (L : length (firstn a t) = a) by (rewrite firstn_length; lia).
  destruct (Nat.eqb_spec k a) as [->|NE].
  - rewrite nth_error_app2 by lia. rewrite L, Nat.sub_diag. reflexivity.
  - destruct (Nat.lt_ge_cases k a).
    + rewrite nth_error_app1 by lia. rewrite <- (firstn_skipn a t) at 2. rewrite nth_error_app1 by lia. reflexivity.
    + rewrite nth_error_app2 by lia. rewrite L. destruct (k - a)%nat as [|d] eqn:E; [lia|]. cbn [app nth_error].
      rewrite <- (firstn_skipn (S a) t) at 2. assert (L2 : length (firstn (S a) t) = S a) by (rewrite firstn_length; lia).
      rewrite nth_error_app2 by lia. rewrite L2. f_equal. lia.
Qed.
Lemma length_put {A} (a : nat) (v : A) (t : list A) : (a < length t)%nat -> length (splice (Z.of_nat a) 1 [v] t) = length t.
Proof.
  intros H. unfold splice, stake, sdrop. rewrite Nat2Z.id. replace (Z.to_nat (Z.of_nat a + 1)) with (S a) by lia.
  rewrite !app_length, firstn_length, skipn_length. cbn [length]. lia.
Qed.
Lemma nth_error_ext {A} (l m : list A) : (forall k, nth_error l k = nth_error m k) -> l = m.
Proof.
  revert m. induction l as [|x l IH]; intros [|y m] H; [reflexivity|discriminate (H O)|discriminate (H O)|].
  pose proof (H O) as E. injection E as ->. f_equal. apply IH. intros k. exact (H (S k)).
Qed.
Lemma back_run i l : forall m a ss t, (a + m = length l)%nat -> sget ss i = Some t -> length t = length l ->
  (forall k, (k < length l)%nat -> nth_error t k = nth_error l (if Nat.ltb k a then Nat.max k (length l - 1 - k) else k)) ->
  exists t', one_by_one i ss (Z.of_nat a) (map (back i (length l)) (seq a m)) = Some (sset i (Some t') ss) /\ length t' = length l /\
    forall k, (k < length l)%nat -> nth_error t' k = nth_error l (Nat.max k (length l - 1 - k)).
Proof.
  induction m as [|m IH]; intros a ss t E El L H; cbn [seq map one_by_one].
  - exists t. rewrite sset_same by exact El. split; [reflexivity|]. split; [exact L|]. intros k Hk. rewrite H by exact Hk.
    destruct (Nat.ltb_spec k a); [reflexivity|lia].
  - rewrite El. unfold back at 1. cbn [shown]. rewrite El.
    destruct (Z.ltb_spec (Z.of_nat (length l) - 1 - Z.of_nat a) 0); [lia|]. replace (Z.to_nat (Z.of_nat (length l) - 1 - Z.of_nat a)) with (length l - 1 - a)%nat by lia.
    rewrite H by lia. destruct (nth_error l _) as [v|] eqn:Ev.
    2:{ apply nth_error_None in Ev. destruct (Nat.ltb_spec (length l - 1 - a) a); lia. }
    destruct (IH (S a) (sset i (Some (splice (Z.of_nat a) 1 [v] t)) ss) (splice (Z.of_nat a) 1 [v] t)) as (t' & O & L' & H'); [lia|eapply sget_sset_eq; exact El|rewrite length_put; lia| |].
    + intros k Hk. rewrite nth_error_put by lia. destruct (Nat.eqb_spec k a) as [->|NE].
      * destruct (Nat.ltb_spec a (S a)); [|lia]. rewrite <- Ev. f_equal. destruct (Nat.ltb_spec (length l - 1 - a) a); lia.
      * rewrite H by exact Hk. destruct (Nat.ltb_spec k a), (Nat.ltb_spec k (S a)); try lia; reflexivity.
    + exists t'. rewrite sset_sset in O. replace (Z.of_nat a + 1) with (Z.of_nat (S a)) by lia. auto.
Qed.
Lemma nth_error_rev {A} (l : list A) k : (k < length l)%nat -> nth_error (rev l) k = nth_error l (length l - 1 - k).
Proof.
  induction l as [|x l IH]; cbn [rev length]; intros H; [lia|]. destruct (Nat.lt_ge_cases k (length l)).
  - rewrite nth_error_app1 by (rewrite rev_length; lia). rewrite IH by lia. replace (S (length l) - 1 - k)%nat with (S (length l - 1 - k)) by lia. reflexivity.
  - rewrite nth_error_app2 by (rewrite rev_length; lia). rewrite rev_length. replace (S (length l) - 1 - k)%nat with O by lia. replace (k - length l)%nat with O by lia. reflexivity.
Qed.
Lemma mirrored_at (l : list Z) k : (k < length l)%nat -> nth_error (mirrored l) k = nth_error l (Nat.max k (length l - 1 - k)).
Proof.
  intros H. unfold mirrored, stake, sdrop. set (h := (slen l + 1) / 2). assert (Hh : slen l <= 2 * h <= slen l + 1) by (unfold h; pose proof (Z.div_mod (slen l + 1) 2); pose proof (Z.mod_pos_bound (slen l + 1) 2); lia).
  unfold slen in *. set (a := Z.to_nat (Z.of_nat (length l) - h)). assert (Ha : (2 * a <= length l <= 2 * a + 1)%nat) by lia.
  assert (L : length (firstn a (rev l)) = a) by (rewrite firstn_length, rev_length; lia). destruct (Nat.lt_ge_cases k a).
  - rewrite nth_error_app1 by lia. replace (Nat.max k (length l - 1 - k)) with (length l - 1 - k)%nat by lia. rewrite <- nth_error_rev by exact H.
    rewrite <- (firstn_skipn a (rev l)) at 2. rewrite nth_error_app1 by lia. reflexivity.
  - rewrite nth_error_app2 by lia. rewrite L. replace (Nat.max k (length l - 1 - k)) with k by lia. rewrite <- (firstn_skipn a l) at 2.
    rewrite nth_error_app2; rewrite firstn_length, Nat.min_l by lia; [reflexivity|lia].
Qed.
Lemma length_mirrored (l : list Z) : length (mirrored l) = length l.
Proof.
  unfold mirrored, stake, sdrop. rewrite app_length, firstn_length, skipn_length, rev_length. pose proof (Z.div_mod (slen l + 1) 2). pose proof (Z.mod_pos_bound (slen l + 1) 2). unfold slen in *. lia.
Qed.
Lemma backwards_back i (l : list Z) : backwards i (slen l) = map (back i (length l)) (seq 0 (length l)).
Proof. unfold backwards, back, slen. rewrite Nat2Z.id. reflexivity. Qed.
Lemma backwards_run i ss l : sget ss i = Some l -> one_by_one i ss 0 (backwards i (slen l)) = Some (sset i (Some (mirrored l)) ss).
Proof.
  intros El. rewrite backwards_back. destruct (back_run i l (length l) O ss l) as (t' & O & L & H); [lia|exact El|reflexivity|intros k Hk; reflexivity|].
  cbn [Z.of_nat] in O. rewrite O. do 3 f_equal. apply nth_error_ext. intros k. destruct (Nat.lt_ge_cases k (length l)).
  - rewrite H by assumption. symmetry. apply mirrored_at. assumption.
  - rewrite (proj2 (nth_error_None t' k)) by lia. symmetry. apply nth_error_None. rewrite length_mirrored. assumption.
Qed.
Lemma backwards_shows i ss (l : list Z) : sget ss i = Some l -> shows ss (backwards i (slen l)) (rev l).
Proof.
  intros El. unfold shows. rewrite backwards_back. apply nth_error_ext. intros k. destruct (Nat.lt_ge_cases k (length l)).
  - assert (E : nth_error (seq 0 (length l)) k = Some k).
    { rewrite (nth_error_nth' _ O) by (rewrite seq_length; assumption). rewrite seq_nth by assumption. reflexivity. }
    rewrite map_map. rewrite (map_nth_error _ _ _ E). unfold back. cbn [shown]. rewrite El.
    destruct (Z.ltb_spec (Z.of_nat (length l) - 1 - Z.of_nat k) 0); [lia|]. replace (Z.to_nat (Z.of_nat (length l) - 1 - Z.of_nat k)) with (length l - 1 - k)%nat by lia.
    rewrite <- nth_error_rev by assumption. destruct (nth_error (rev l) k) as [v|] eqn:Ev; [rewrite (map_nth_error _ _ _ Ev); reflexivity|].
    apply nth_error_None in Ev. rewrite rev_length in Ev. lia.
  - rewrite (proj2 (nth_error_None _ _)) by (rewrite !map_length, seq_length; assumption). symmetry. apply nth_error_None. rewrite map_length, rev_length. assumption.
Qed.
Lemma backwards_cells {ChT : CharType} i n : Forall char_cell (backwards i n).
Proof. unfold backwards. apply Forall_map, Forall_forall. intros k _. exact I. Qed.
Lemma slen_backwards i n : 0 <= n -> slen (backwards i n) = n.
Proof. intros H. unfold backwards, slen. rewrite map_length, seq_length. lia. Qed.

Section Wide.
Context {ChT : CharType}.
Variables (dbg arena : bool) (mal : nat -> Z -> bool) (ar : Z).
Hypotheses (MS : mal_sane mal) (AO : ar_ok dbg arena ar).
Lemma reach_backwards n s ss i c l : reach dbg arena mal ar n s -> short n -> sees s ss -> sget (s_objs s) i = Some c -> sget ss i = Some l ->
  is_shared (s_heap s) c = Ret false (s_heap s) c ->
  gives (fstep dbg arena mal s i FAssign (backwards i (slen l))) (sset i (Some (mirrored l)) ss).
Proof.
  intros H SH SE Ec El SHD. assert (L0 : 0 <= slen l) by (unfold slen; lia). assert (LB : slen (backwards i (slen l)) = slen l) by (apply slen_backwards; exact L0).
  assert (OB : one_by_one i ss 0 (backwards i (slen l)) = Some (sset i (Some (mirrored l)) ss)) by (apply backwards_run; exact El).
  pose proof (reach_over dbg arena mal ar MS AO n s ss i c l 0 (slen l) FAssign (backwards i (slen l)) (rev l) _ (mirrored l) H SH SE Ec El
    (backwards_cells i (slen l)) (backwards_shows i ss l El) SHD eq_refl ltac:(lia) ltac:(lia) ltac:(lia) OB ltac:(eapply sget_sset_eq; exact El)) as G.
  replace (splice (0 + slen (backwards i (slen l))) (slen l - slen (backwards i (slen l))) [] (mirrored l)) with (mirrored l) in G; [exact G|].
  rewrite LB, Z.sub_diag, Z.add_0_l. replace (slen l) with (slen (mirrored l)) by (unfold slen; rewrite length_mirrored; reflexivity).
  symmetry. rewrite splice_tail. apply app_nil_r.
Qed.
End Wide.
Lemma mirrored_wrong (l : list Z) : mirrored l = rev l -> l = rev l.
Proof.
  intros E. apply nth_error_ext. intros k. destruct (Nat.lt_ge_cases k (length l)).
  - pose proof (mirrored_at l k H) as M1. rewrite E, nth_error_rev in M1 by exact H. rewrite nth_error_rev by exact H.
    assert (H2 : (length l - 1 - k < length l)%nat) by lia. pose proof (mirrored_at l _ H2) as M2. rewrite E, nth_error_rev in M2 by exact H2.
    replace (length l - 1 - (length l - 1 - k))%nat with k in M2 by lia. destruct (Nat.max_spec k (length l - 1 - k)) as [(_ & Q)|(_ & Q)].
    + rewrite Nat.max_comm, Q in M2. exact M2.
    + rewrite Q in M1. symmetry. exact M1.
  - rewrite (proj2 (nth_error_None l k)) by lia. symmetry. apply nth_error_None. rewrite rev_length. assumption.
Qed.
