(** stdb_vector with throwing element constructors: loops and destruction. *)
Require Import ZArith List Bool Lia.
From Verif Require Import Base BaseProofs VecSpec VecModel VecStatements VecProofs VecProofs2 VecProofs3
  VecThrowModel VecThrowStatements.
Import ListNotations.
Open Scope Z_scope.

Lemma bind_assoc {A B C} (m : res A) (f : A -> res B) (g : B -> res C) :
  bind (bind m f) g = bind m (fun x => bind (f x) g).
Proof. destruct m; reflexivity. Qed.

Section K.
Variable k : kind.
Variable sz : Z.
Variable dbg : bool.
Hypothesis CK : counted k = true.

Lemma not_reloc : is_relocatable k = false. Proof. destruct k; discriminate || reflexivity. Qed.
Lemma not_kreloc : k <> KReloc. Proof. intros E; rewrite E in CK; discriminate. Qed.

(** With enough constructions left the loops are the ones of VecModel. *)
Lemma fill_t_all r d : forall n b a i left, (n <= left)%nat ->
  fill_t k b a i n r d left = do (b1, a1) <- fill_loop k b a i n r d; Ok (b1, a1, true).
Proof.
  induction n as [|n IH]; intros b a i left H; [reflexivity|]. destruct left as [|left]; [lia|].
  cbn [fill_t fill_loop]. destruct (read_ref _ r) as [v| |]; cbn [bind]; try reflexivity.
  destruct (construct k b a i v) as [[b1 a1]| |]; cbn [bind]; try reflexivity. apply IH; lia.
Qed.
Lemma write_t_all : forall l b a i left, (length l <= left)%nat ->
  write_t k b a i l left = do (b1, a1) <- write_list k b a i l; Ok (b1, a1, true).
Proof.
  induction l as [|x l IH]; intros b a i left H; [reflexivity|]. cbn [length] in H. destruct left as [|left]; [lia|].
  cbn [write_t write_list].
  destruct (construct k b a i x) as [[b1 a1]| |]; cbn [bind]; try reflexivity. apply IH; lia.
Qed.
Lemma copy_t_all src : forall n b a i left, (n <= left)%nat ->
  copy_t k src b a i n left = do (b1, a1) <- copy_loop k src b a i n; Ok (b1, a1, true).
Proof.
  induction n as [|n IH]; intros b a i left H; [reflexivity|]. destruct left as [|left]; [lia|].
  cbn [copy_t copy_loop]. destruct (read src i) as [v| |]; cbn [bind]; try reflexivity.
  destruct (construct k b a i v) as [[b1 a1]| |]; cbn [bind]; try reflexivity. apply IH; lia.
Qed.
Lemma cref_t_all ob a p q r d left : q - p <= Z.of_nat left ->
  cref_t k dbg ob a p q r d left = do (b1, a1) <- construct_range_with_cref k dbg ob a p q r d; Ok (b1, a1, true).
Proof.
  intros H. unfold cref_t, construct_range_with_cref. rewrite !bind_assoc.
  destruct (assert dbg _) as [[]| |]; cbn [bind]; try reflexivity. destruct (assert dbg _) as [[]| |]; cbn [bind]; try reflexivity.
  destruct ob as [b|]; [|destruct (p <? q); reflexivity].
  rewrite fill_t_all by lia. rewrite !bind_assoc. destruct (fill_loop _ _ _ _ _ _ _) as [[b1 a1]| |]; reflexivity.
Qed.
Lemma from_iter_t_all ob a i l left : (length l <= left)%nat ->
  from_iter_t k dbg ob a i l left = do (b1, a1) <- copy_from_iterator k dbg ob a i l; Ok (b1, a1, true).
Proof.
  intros H. unfold from_iter_t, copy_from_iterator. rewrite !bind_assoc.
  destruct (assert dbg _) as [[]| |]; cbn [bind]; try reflexivity. destruct (assert dbg _) as [[]| |]; cbn [bind]; try reflexivity.
  destruct ob as [b|]; [|destruct l; reflexivity].
  rewrite write_t_all by lia. pose proof not_kreloc.
  destruct k; try congruence; rewrite !bind_assoc; destruct (write_list _ _ _ _ _) as [[b1 a1]| |]; reflexivity.
Qed.
Lemma copy_range_t_all src b a n left : n <= Z.of_nat left ->
  copy_range_t k dbg src b a n left = do (b1, a1) <- copy_range k dbg src b a n; Ok (b1, a1, true).
Proof.
  intros H. unfold copy_range_t, copy_range. rewrite !bind_assoc.
  destruct (assert dbg _) as [[]| |]; cbn [bind]; try reflexivity.
  rewrite copy_t_all by lia. destruct k; discriminate CK || reflexivity.
Qed.
Lemma new_t_all b a i v left : (1 <= left)%nat ->
  new_t k b a i v left = do (b1, a1) <- construct k b a i v; Ok (b1, a1, true).
Proof. destruct left; [lia|reflexivity]. Qed.
Lemma copy_value_construct b a i v : copy_value k b a i v = construct k b a i v.
Proof. unfold copy_value. rewrite not_reloc. reflexivity. Qed.

(** Interrupted loops. *)
Lemma fill_t_stop v d : forall left n b a i, (left < n)%nat ->
  0 <= i -> i + Z.of_nat left <= b_len b -> (forall j, i <= j < i + Z.of_nat left -> spare k (b_at b j)) ->
  exists b' a', fill_t k b a i n (Val v) d left = Ok (b', a', false) /\ keeps k a a' /\
    same_out b b' i (Z.of_nat left) /\ forall j, i <= j < i + Z.of_nat left -> b_at b' j = Live v.
Proof.
  induction left as [|left IH]; intros n b a i HN H0 H1 HS; (destruct n as [|n]; [lia|]).
  - exists b, a. cbn. split; [reflexivity|]. split; [apply keeps_refl|]. split; [split; auto|]. intros; lia.
  - cbn [fill_t bind read_ref].
    destruct (construct_ok k b a i v) as (a1 & E1 & K1); [lia|apply HS; lia|].
    rewrite E1; cbn [bind].
    destruct (IH n (set b i (Live v)) a1 (i + 1)) as (b' & a' & E & KK & [L O] & F).
    + lia.
    + lia.
    + rewrite set_len; lia.
    + intros j Hj; rewrite set_other by lia; apply HS; lia.
    + exists b', a'. split; [exact E|]. split; [eapply keeps_trans; eassumption|]. split.
      * split; [exact L|]. intros j Hj. rewrite O by lia. apply set_other; lia.
      * intros j Hj. destruct (Z.eq_dec j i) as [->|].
        -- rewrite O by lia. apply set_same.
        -- apply F; lia.
Qed.
Lemma write_t_stop : forall left l b a i, (left < length l)%nat ->
  0 <= i -> i + Z.of_nat left <= b_len b -> (forall j, i <= j < i + Z.of_nat left -> spare k (b_at b j)) ->
  exists b' a', write_t k b a i l left = Ok (b', a', false) /\ keeps k a a' /\
    same_out b b' i (Z.of_nat left) /\ forall j, i <= j < i + Z.of_nat left -> b_at b' j = Live (zn l (j - i)).
Proof.
  induction left as [|left IH]; intros l b a i HN H0 H1 HS; (destruct l as [|x l]; cbn [length] in HN; [lia|]).
  - exists b, a. cbn. split; [reflexivity|]. split; [apply keeps_refl|]. split; [split; auto|]. intros; lia.
  - cbn [write_t].
    destruct (construct_ok k b a i x) as (a1 & E1 & K1); [lia|apply HS; lia|].
    rewrite E1; cbn [bind].
    destruct (IH l (set b i (Live x)) a1 (i + 1)) as (b' & a' & E & KK & [L O] & F).
    + lia.
    + lia.
    + rewrite set_len; lia.
    + intros j Hj; rewrite set_other by lia; apply HS; lia.
    + exists b', a'. split; [exact E|]. split; [eapply keeps_trans; eassumption|]. split.
      * split; [exact L|]. intros j Hj. rewrite O by lia. apply set_other; lia.
      * intros j Hj. destruct (Z.eq_dec j i) as [->|].
        -- rewrite O by lia. rewrite set_same, Z.sub_diag. reflexivity.
        -- rewrite F by lia. rewrite zn_consS by lia. do 2 f_equal. lia.
Qed.
Lemma copy_t_stop src l : forall left n b a i, (left < n)%nat ->
  0 <= i -> i + Z.of_nat left <= b_len b -> i + Z.of_nat n <= b_len src ->
  (forall j, i <= j < i + Z.of_nat n -> b_at src j = Live (zn l j)) ->
  (forall j, i <= j < i + Z.of_nat left -> spare k (b_at b j)) ->
  exists b' a', copy_t k src b a i n left = Ok (b', a', false) /\ keeps k a a' /\
    same_out b b' i (Z.of_nat left) /\ forall j, i <= j < i + Z.of_nat left -> b_at b' j = Live (zn l j).
Proof.
  induction left as [|left IH]; intros n b a i HN H0 H1 H2 HL HS; (destruct n as [|n]; [lia|]);
    cbn [copy_t]; rewrite (read_ok src i (zn l i)) by (lia || (apply HL; lia)); cbn [bind].
  - exists b, a. cbn. split; [reflexivity|]. split; [apply keeps_refl|]. split; [split; auto|]. intros; lia.
  - destruct (construct_ok k b a i (zn l i)) as (a1 & E1 & K1); [lia|apply HS; lia|].
    rewrite E1; cbn [bind].
    destruct (IH n (set b i (Live (zn l i))) a1 (i + 1)) as (b' & a' & E & KK & [L O] & F).
    + lia.
    + lia.
    + rewrite set_len; lia.
    + lia.
    + intros j Hj; apply HL; lia.
    + intros j Hj; rewrite set_other by lia; apply HS; lia.
    + exists b', a'. split; [exact E|]. split; [eapply keeps_trans; eassumption|]. split.
      * split; [exact L|]. intros j Hj. rewrite O by lia. apply set_other; lia.
      * intros j Hj. destruct (Z.eq_dec j i) as [->|].
        -- rewrite O by lia. apply set_same.
        -- apply F; lia.
Qed.
Lemma cref_t_stop b a p n v d left : Z.of_nat left < n -> 0 <= p ->
  p + Z.of_nat left <= b_len b -> (forall j, p <= j < p + Z.of_nat left -> spare k (b_at b j)) ->
  exists b' a', cref_t k dbg (Some b) a p (p + n) (Val v) d left = Ok (Some b', a', false) /\ keeps k a a' /\
    same_out b b' p (Z.of_nat left) /\ forall j, p <= j < p + Z.of_nat left -> b_at b' j = Live v.
Proof.
  intros H0 HP H1 HS. unfold cref_t. rewrite assert_ok by reflexivity. cbn [bind].
  rewrite assert_ok by (apply Z.ltb_lt; lia). cbn [bind].
  destruct (fill_t_stop v d left (Z.to_nat (p + n - p)) b a p) as (b' & a' & E & X); try lia; auto.
  rewrite E. cbn [bind]. exists b', a'. auto.
Qed.
Lemma from_iter_t_stop b a p l left : Z.of_nat left < len l -> 0 <= p ->
  p + Z.of_nat left <= b_len b -> (forall j, p <= j < p + Z.of_nat left -> spare k (b_at b j)) ->
  exists b' a', from_iter_t k dbg (Some b) a p l left = Ok (Some b', a', false) /\ keeps k a a' /\
    same_out b b' p (Z.of_nat left) /\ forall j, p <= j < p + Z.of_nat left -> b_at b' j = Live (zn l (j - p)).
Proof.
  intros H0 HP H1 HS. unfold from_iter_t, len in *. rewrite assert_ok by reflexivity. cbn [bind].
  rewrite assert_ok by (destruct l; [cbn in H0; lia|reflexivity]). cbn [bind].
  destruct (write_t_stop left l b a p) as (b' & a' & E & X); try lia; auto.
  rewrite E. cbn [bind]. exists b', a'. auto.
Qed.

(** Destroying. *)
Lemma destroy_undef : forall n b a i j,
  i <= j < i + Z.of_nat n -> b_at b j = Raw -> destroy_range k b a i n = Undef.
Proof.
  induction n as [|n IH]; intros b a i j Hj R; [lia|]. cbn [destroy_range].
  assert (KU : kill k b a i = do c <- get b i; match c with Raw => Undef
     | _ => Ok (set b i Raw, if counted k then {| n_con := n_con a; n_des := n_des a + 1; n_lost := n_lost a; n_gone := n_gone a |} else a) end)
    by (destruct k; discriminate CK || reflexivity).
  rewrite KU. unfold get. destruct ((0 <=? i) && (i <? b_len b)); [|reflexivity]. cbn [bind].
  destruct (Z.eq_dec j i) as [->|N]; [rewrite R; reflexivity|].
  destruct (b_at b i); cbn [bind]; try reflexivity; apply IH with j; try lia; rewrite set_other by lia; exact R.
Qed.
Lemma core_destroy_undef b size a j : 0 <= j < size -> b_at b j = Raw -> core_destroy k (Some b) size a = Undef.
Proof. intros H R. cbn. rewrite (destroy_undef _ b a 0 j) by (lia || exact R). reflexivity. Qed.

Lemma destroy_raw : forall n b a i, 0 <= i -> i + Z.of_nat n <= b_len b ->
  (forall j, i <= j < i + Z.of_nat n -> b_at b j <> Raw) ->
  exists b' a', destroy_range k b a i n = Ok (b', a') /\ n_lost a' = n_lost a /\ n_gone a' = n_gone a /\
    n_con a' = n_con a /\ n_des a' = n_des a + Z.of_nat n /\
    same_out b b' i (Z.of_nat n) /\ forall j, i <= j < i + Z.of_nat n -> b_at b' j = Raw.
Proof.
  induction n as [|n IH]; intros b a i H0 H1 HN.
  - exists b, a. cbn. repeat split; auto; intros; lia.
  - cbn [destroy_range].
    assert (KU : kill k b a i = Ok (set b i Raw, {| n_con := n_con a; n_des := n_des a + 1; n_lost := n_lost a; n_gone := n_gone a |})).
    { unfold kill. rewrite CK. rewrite get_ok by lia. cbn [bind]. pose proof (HN i ltac:(lia)).
      destruct k; try discriminate CK; destruct (b_at b i); congruence. }
    rewrite KU. cbn [bind].
    destruct (IH (set b i Raw) {| n_con := n_con a; n_des := n_des a + 1; n_lost := n_lost a; n_gone := n_gone a |} (i + 1))
      as (b' & a' & E & A1 & A2 & A3 & A4 & [L O] & F).
    + lia.
    + rewrite set_len; lia.
    + intros j Hj. rewrite set_other by lia. apply HN; lia.
    + exists b', a'. cbn in A1, A2, A3, A4. split; [exact E|]. repeat (split; [lia|]). split.
      * split; [exact L|]. intros j Hj. rewrite O by lia. apply set_other; lia.
      * intros j Hj. destruct (Z.eq_dec j i) as [->|]; [rewrite O by lia; apply set_same|apply F; lia].
Qed.

(** Counting the cells of two intervals. *)
Definition span (p q n : Z) : Z := Z.max 0 (Z.min q n - p).
Lemma count_spans g f p1 q1 p2 q2 : 0 <= p1 -> p1 <= q1 -> q1 <= p2 -> p2 <= q2 -> forall n,
  (forall j, 0 <= j < Z.of_nat n -> g (f j) = true <-> (p1 <= j < q1 \/ p2 <= j < q2)) ->
  count_cells g f n = span p1 q1 (Z.of_nat n) + span p2 q2 (Z.of_nat n).
Proof.
  intros H1 H2 H3 H4. induction n as [|n IH]; intros H; [unfold span; cbn; lia|].
  cbn [count_cells]. rewrite IH by (intros; apply H; lia). specialize (H (Z.of_nat n) ltac:(lia)).
  unfold span in *. destruct (g (f (Z.of_nat n))).
  - destruct H as [H _]. specialize (H eq_refl). cbn [b2]. lia.
  - assert (~ (p1 <= Z.of_nat n < q1 \/ p2 <= Z.of_nat n < q2)) by (intros X; apply H in X; discriminate). cbn [b2]. lia.
Qed.

Lemma core_destroy_count b size a p1 q1 p2 q2 :
  0 <= size <= b_len b -> (forall j, 0 <= j < size -> b_at b j <> Raw) ->
  exists a', core_destroy k (Some b) size a = Ok a' /\
    (size <= p1 -> p1 <= q1 -> q1 <= p2 -> p2 <= q2 -> q2 <= b_len b ->
     (forall j, size <= j < b_len b -> is_live (b_at b j) = true <-> (p1 <= j < q1 \/ p2 <= j < q2)) ->
     n_lost a' = n_lost a + (q1 - p1) + (q2 - p2)).
Proof.
  intros HS HN. destruct (destroy_raw (Z.to_nat size) b a 0) as (b' & a' & E & A1 & A2 & A3 & A4 & [L O] & F); try lia.
  { intros; apply HN; lia. }
  cbn [core_destroy]. rewrite E. cbn [bind]. eexists; split; [reflexivity|]. intros P1 P2 P3 P4 P5 HL.
  cbn [free_buf]. rewrite CK. cbn [n_lost]. rewrite A1.
  rewrite (count_spans is_live (b_at b') p1 q1 p2 q2); try lia.
  - unfold span. lia.
  - intros j Hj. destruct (Z.lt_ge_cases j size) as [X|X].
    + rewrite F by lia. cbn. split; [discriminate|lia].
    + rewrite O by lia. apply HL; lia.
Qed.

(** Elements moved away leave an object behind unless they are copied and destroyed. *)
Lemma shift_one_obj b a i j b' a' x : k <> KCopy -> shift_one k b a i j = Ok (b', a') ->
  b_at b x <> Raw -> b_at b' x <> Raw.
Proof.
  intros NK E H. unfold shift_one, construct in E. destruct (read b i) as [v| |]; cbn [bind] in E; try discriminate.
  destruct k; try discriminate CK; try congruence; unfold get in E; cbn [b_len] in E;
    destruct ((0 <=? j) && (j <? b_len _)); cbn [bind] in E; try discriminate; injection E as <- _; cbn;
    destruct (x =? j); try discriminate; try exact H; destruct (x =? i); try discriminate; exact H.
Qed.
Lemma shift_up_obj : k <> KCopy -> forall n b a d s b' a' x, shift_up k b a d s n = Ok (b', a') ->
  b_at b x <> Raw -> b_at b' x <> Raw.
Proof.
  intros NK. induction n as [|n IH]; intros b a d s b' a' x E H; cbn in E; [injection E as <- _; exact H|].
  destruct (shift_one k b a s d) as [[b1 a1]| |] eqn:E1; cbn in E; try discriminate.
  eapply IH; [exact E|]. eapply shift_one_obj; eassumption.
Qed.
Lemma shift_down_obj : k <> KCopy -> forall n b a d s b' a' x, shift_down k b a d s n = Ok (b', a') ->
  b_at b x <> Raw -> b_at b' x <> Raw.
Proof.
  intros NK. induction n as [|n IH]; intros b a d s b' a' x E H; cbn in E; [injection E as <- _; exact H|].
  destruct (shift_one k b a _ _) as [[b1 a1]| |] eqn:E1; cbn in E; try discriminate.
  eapply IH; [exact E|]. eapply shift_one_obj; eassumption.
Qed.
Lemma move_forward_obj b a d s e b' a' x : k <> KCopy -> move_forward k dbg b a d s e = Ok (b', a') ->
  b_at b x <> Raw -> b_at b' x <> Raw.
Proof.
  intros NK. unfold move_forward, move_range_forward. rewrite not_reloc.
  destruct (assert dbg _); cbn [bind]; try discriminate. destruct (assert dbg _); cbn [bind]; try discriminate.
  destruct (assert dbg _); cbn [bind]; try discriminate. apply shift_up_obj; exact NK.
Qed.
Lemma move_backward_obj b a d s e b' a' x : k <> KCopy -> move_backward k dbg b a d s e = Ok (b', a') ->
  b_at b x <> Raw -> b_at b' x <> Raw.
Proof.
  intros NK. unfold move_backward. rewrite not_reloc.
  destruct (assert dbg _); cbn [bind]; try discriminate. destruct (assert dbg _); cbn [bind]; try discriminate.
  apply shift_down_obj; exact NK.
Qed.
Lemma open_gap_obj b a pos n size b' a' x : k <> KCopy -> open_gap k dbg b a pos n size = Ok (b', a') ->
  b_at b x <> Raw -> b_at b' x <> Raw.
Proof. intros NK. unfold open_gap. destruct (size <=? pos + n); [apply move_forward_obj|apply move_backward_obj]; exact NK. Qed.
Lemma open_gap1_obj b a pos size b' a' x : k <> KCopy -> open_gap1 k dbg b a pos size = Ok (b', a') ->
  b_at b x <> Raw -> b_at b' x <> Raw.
Proof. intros NK. unfold open_gap1. destruct (pos <? size - 1); [apply move_backward_obj|apply move_forward_obj]; exact NK. Qed.
End K.
