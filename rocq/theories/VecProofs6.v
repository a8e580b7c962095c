(** stdb_vector: growth and capacity. *)
Require Import ZArith List Bool Lia.
From Verif Require Import Base BaseProofs VecSpec VecModel VecStatements VecProofs VecProofs2 VecProofs3 VecProofs4.
Import ListNotations.
Open Scope Z_scope.

Ltac st := match goal with
  | H : bind ?m _ = Ok _ |- _ => let E := fresh "E" in destruct m as [?x| |] eqn:E; cbn [bind] in H; [|discriminate H|discriminate H]
  | H : Ok _ = Ok _ |- _ => injection H as ?; subst
  | H : Undef = Ok _ |- _ => discriminate H
  | H : AssertFail = Ok _ |- _ => discriminate H
  | H : (if ?c then _ else _) = Ok _ |- _ => let E := fresh "C" in destruct c eqn:E
  | p : _ * _ |- _ => destruct p
  | H : match ?x with _ => _ end = Ok _ |- _ => let E := fresh "X" in destruct x eqn:E
  end.

Section K.
Variable k : kind.
Variable sz : Z.
Variable dbg : bool.
Hypothesis SZ : size_ok sz.

Definition made (a a' : acct) (n : Z) : Prop := counted k = true -> n_con a' = n_con a + n.
Lemma made_trans a b c n m : made a b n -> made b c m -> made a c (n + m).
Proof. unfold made; intros H1 H2 C; rewrite H2, H1 by exact C; lia. Qed.
Lemma construct_made b a i v b' a' : construct k b a i v = Ok (b', a') -> made a a' 1.
Proof. unfold construct. intros H C. rewrite C in H. repeat st. reflexivity. Qed.
Lemma kill_made b a i b' a' : kill k b a i = Ok (b', a') -> made a a' 0.
Proof.
  unfold kill. intros H C. rewrite C in H. destruct k; try discriminate C; repeat st; cbn; lia.
Qed.
Lemma copy_value_made b a i v b' a' : copy_value k b a i v = Ok (b', a') -> made a a' 1.
Proof.
  unfold copy_value. intros H. destruct (is_relocatable k) eqn:R; [|eapply construct_made; exact H].
  intros C. destruct k; discriminate.
Qed.
Lemma transfer_made s d a i j s' d' a' : transfer k s d a i j = Ok (s', d', a') -> made a a' 1.
Proof.
  unfold transfer. intros H. st. st. st. apply construct_made in E0. intros C. pose proof C as C'.
  destruct k eqn:EK in H, C'; cbn in C'; try discriminate C'; rewrite <- ?EK in H.
  - st. auto.
  - st. auto.
  - st. st. apply kill_made in E1. st. rewrite (E1 C), (E0 C). lia.
Qed.
Lemma transfer_loop_made : forall n s d a i s' d' a', transfer_loop k s d a i n = Ok (s', d', a') -> made a a' (Z.of_nat n).
Proof.
  induction n as [|n IH]; intros s d a i s' d' a' H; cbn in H.
  - st. intros C; cbn; lia.
  - repeat st. apply transfer_made in E. apply IH in H. replace (Z.of_nat (S n)) with (1 + Z.of_nat n) by lia. eapply made_trans; eassumption.
Qed.
Lemma move_wo_made s d a n s' d' a' : 0 <= n -> move_range_without_overlap k s d a n = Ok (s', d', a') -> made a a' n.
Proof.
  unfold move_range_without_overlap. intros N H. destruct (is_relocatable k) eqn:R.
  - intros C. destruct k; discriminate.
  - apply transfer_loop_made in H. rewrite Z2Nat.id in H by lia. exact H.
Qed.
Lemma free_made b a : made a (free_buf k b a) 0.
Proof. intros C. unfold free_buf. destruct b; [rewrite C; cbn|]; lia. Qed.

Local Opaque free_buf.
Lemma made_eq a b n m : made a b n -> n = m -> made a b m.
Proof. intros H <-; exact H. Qed.
Lemma append_step mal b size cap a o v' a' r : malloc_sane mal -> appends o ->
  0 <= size <= cap -> cap * sz < HALF ->
  run_uop k sz dbg mal (Vec b size cap) a o = Ok (v', a', Done r) ->
  exists b' cap', v' = Vec (Some b') (size + 1) cap' /\
    (size < cap /\ cap' = cap /\ made a a' 1 \/
     size = cap /\ cap' = next_capacity sz cap /\ cap' * sz < HALF /\ made a a' (1 + size)).
Proof.
  intros MS AP R B H. destruct (next_facts sz cap SZ ltac:(lia) B) as (N1 & N2 & _ & _).
  assert (RE : forall x v1 a1 i, realloc_and_emplace_back k sz dbg mal b size cap a (next_capacity sz cap) x = Ok (v1, a1, Done i) -> size = cap ->
     exists b' cap', v1 = Vec (Some b') (size + 1) cap' /\
     (size < cap /\ cap' = cap /\ made a a1 1 \/
     size = cap /\ cap' = next_capacity sz cap /\ cap' * sz < HALF /\ made a a1 (1 + size))).
  { intros x v1 a1 i E S. unfold realloc_and_emplace_back, allocate in E.
    destruct (malloc sz mal (next_capacity sz cap)) as [nb|] eqn:EM.
    - assert (ML : next_capacity sz cap * sz < HALF).
      { unfold malloc in EM. destruct (mal _) eqn:EE in EM; [|discriminate]. apply MS in EE. unfold mul64 in EE.
        destruct SZ. rewrite Z.mod_small in EE by nia. exact EE. }
      repeat st; eexists; eexists; (split; [reflexivity|]); right; (split; [reflexivity|]); (split; [reflexivity|]);
        (split; [exact ML|]).
      + match goal with Q : construct _ _ _ _ _ = _ |- _ => apply construct_made in Q end.
        match goal with Q : move_range_without_overlap _ _ _ _ _ = _ |- _ => apply move_wo_made in Q; [|lia] end.
        eapply made_eq; [eapply made_trans; [eapply made_trans; eassumption|apply free_made]|lia].
      + match goal with Q : (0 <? _) = false |- _ => apply Z.ltb_ge in Q end.
        match goal with Q : construct _ _ _ _ _ = _ |- _ => apply construct_made in Q end.
        eapply made_eq; [eapply made_trans; [eassumption|apply free_made]|lia].
    - repeat st. discriminate. }
  assert (FU : forall f, full dbg size cap = Ok f -> f = (size =? cap)) by (unfold full; intros f Q; repeat st; reflexivity).
  destruct o; cbn in AP; try contradiction; subst safe; cbn [run_uop] in H.
  - st. specialize (FU _ eq_refl). subst x. destruct (Z.eqb_spec size cap) as [S|S]; cbn [andb] in H.
    + repeat st. match goal with Q : match ?y with Done _ => _ | Threw => _ end = Done _ |- _ => destruct y; [|discriminate Q] end. eapply RE; reflexivity || eassumption.
    + repeat st. eexists; eexists; split; [reflexivity|]. left. split; [lia|]. split; [reflexivity|]. eapply copy_value_made; eassumption.
  - st. specialize (FU _ eq_refl). subst x. destruct (Z.eqb_spec size cap) as [S|S]; cbn [andb] in H.
    + repeat st. match goal with Q : match ?y with Done _ => _ | Threw => _ end = Done _ |- _ => destruct y; [|discriminate Q] end. eapply RE; reflexivity || eassumption.
    + repeat st. eexists; eexists; split; [reflexivity|]. left. split; [lia|]. split; [reflexivity|]. eapply copy_value_made; eassumption.
  - st. specialize (FU _ eq_refl). subst x. destruct (Z.eqb_spec size cap) as [S|S]; cbn [andb] in H.
    + eapply RE; eassumption.
    + repeat st. eexists; eexists; split; [reflexivity|]. left. split; [lia|]. split; [reflexivity|]. eapply construct_made; eassumption.
Qed.

Lemma appended_ok b size cap a n m v' a' : 0 <= size <= cap -> cap * sz < HALF ->
  appended k sz dbg (Vec b size cap) a n m v' a' ->
  exists b' cap', v' = Vec b' (size + n) cap' /\ size + n <= cap' /\ cap' * sz < HALF /\ 0 <= n /\ cap <= cap' /\
    0 <= m <= 2 * cap' /\ m <= 3 * (size + n) /\ (cap' < init_capacity sz -> m = 0) /\ made a a' (n + m).
Proof.
  intros R B H. induction H as [|n m v1 a1 mal o v2 a2 r s c c' H IH MS AP RU VS VC VC'].
  - exists b, cap. replace (size + 0) with size by lia. split; [reflexivity|].
    split; [lia|]. split; [exact B|]. split; [lia|]. split; [lia|]. split; [lia|]. split; [lia|]. split; [reflexivity|]. intros C; lia.
  - destruct IH as (b1 & c1 & -> & L & HB & N0 & CC & [M0 M1] & M2 & M3 & MD).
    cbn in VS, VC. injection VS as <-. injection VC as <-.
    destruct (append_step mal b1 (size + n) c1 a1 o v2 a2 r MS AP ltac:(lia) HB RU) as (b2 & c2 & -> & Q).
    cbn in VC'. injection VC' as <-. destruct (next_facts sz c1 SZ ltac:(lia) HB) as (N1 & _ & N3 & _).
    pose proof (init_pos sz SZ) as IP.
    exists (Some b2), c2. split; [f_equal; lia|]. destruct Q as [(Q1 & -> & Q2)|(Q1 & -> & Q2 & Q3)].
    + rewrite Z.eqb_refl. repeat (split; [first [lia|assumption]|]). intros C. specialize (Q2 C). specialize (MD C). lia.
    + destruct (Z.eqb_spec c1 (next_capacity sz c1)) as [F|_]; [lia|].
      assert (G : m + (size + n) <= 2 * next_capacity sz c1 /\ (next_capacity sz c1 < init_capacity sz -> False)).
      { destruct (Z_lt_le_dec c1 (init_capacity sz)) as [I|I].
        - specialize (M3 I). assert (next_capacity sz c1 >= init_capacity sz); [|lia].
          unfold next_capacity. destruct (init_le sz SZ) as [IL _].
          destruct (Z.leb_spec (init_capacity sz) c1); [lia|]. rewrite andb_false_r.
          destruct (Z.leb_spec (131072 / sz) c1); lia.
        - specialize (N3 I). lia. }
      destruct G as [G1 G2].
      split; [lia|]. split; [exact Q2|]. split; [lia|]. split; [lia|]. split; [lia|]. split; [lia|].
      split; [intros I; destruct (G2 I)|]. intros C. specialize (Q3 C). specialize (MD C). lia.
Qed.

(** Elements that fit need no memory, and the capacity stays. *)
Lemma grow_none mal s b size cap a one n : (if one : bool then size < cap else 0 <= size /\ 0 <= n /\ size + n <= cap) -> cap < M64 ->
  grow_for k sz dbg mal s b size cap a one n = Ok (b, size, cap, a, false, false).
Proof.
  intros H HM. unfold grow_for. destruct s; [|reflexivity]. destruct one.
  - unfold full, assert. replace (size <=? cap) with true by (symmetry; apply Z.leb_le; lia). cbn. rewrite andb_false_r. cbn [bind].
    replace (size =? cap) with false by (symmetry; apply Z.eqb_neq; lia). reflexivity.
  - destruct H as (H0 & H1 & H2). cbn [bind].
    unfold add64. rewrite Z.mod_small by lia.
    replace (cap <? size + n) with false by (symmetry; apply Z.ltb_ge; lia). reflexivity.
Qed.

Lemma len_take_drop p q l : 0 <= p <= len l -> 0 <= q <= len l -> len (take p l ++ drop q l) = p + (len l - q).
Proof. intros H1 H2. unfold len, take, drop in *. rewrite app_length, firstn_length, skipn_length. lia. Qed.
Lemma len_fill n v : 0 <= n -> len (fill_with n v) = n.
Proof. intros. unfold len, fill_with. rewrite repeat_length. lia. Qed.
Lemma len_app l m : len (l ++ m) = len l + len m.
Proof. unfold len. rewrite app_length. lia. Qed.

Lemma in_place mal v l a o l' r' c :
  vrep k sz v l -> apply o l = Some (l', r') -> vcapacity v = Ok c -> len l' <= c -> ~ asks_for_buffer v o ->
  run_uop k sz dbg mal v a o = run_uop k sz dbg (fun _ => false) v a o /\
  forall v' a' r, run_uop k sz dbg mal v a o = Ok (v', a', Done r) -> vcapacity v' = Ok c.
Proof.
  intros R HA VC L NA. destruct v as [b size cap|]; [|contradiction]. cbn in VC. injection VC as <-.
  pose proof R as (Hs & Hc & Hb & _). pose proof (len_nonneg l) as LN. destruct SZ as [S1 S2].
  assert (HM : cap < M64) by (unfold HALF, M64 in *; nia).
  assert (V : forall r, the_value l r <> None -> exists x, the_value l r = Some x) by (intros r; destruct (the_value l r); [eauto|congruence]).
  destruct o as [n r|new| |n|safe n new|safe new|safe r|safe x|safe r| |p|p q|r|pr| |p r|n|new|n r|safe p r|safe p x|safe p n r|safe p new|safe p r];
    cbn [apply] in HA.
  - destruct (Z.ltb_spec n 0); [discriminate|]. destruct (the_value l r); [|discriminate]. injection HA as <- <-.
    rewrite len_fill in L by lia. cbn [run_uop]. replace (cap <? n) with false by (symmetry; apply Z.ltb_ge; lia).
    split; [reflexivity|]. intros; repeat st; reflexivity.
  - injection HA as <- <-. cbn [run_uop]. replace (cap <? len new) with false by (symmetry; apply Z.ltb_ge; lia).
    split; [reflexivity|]. intros; repeat st; reflexivity.
  - destruct (NA I).
  - cbn in NA. cbn [run_uop]. replace (cap <? n) with false by (symmetry; apply Z.ltb_ge; lia).
    split; [reflexivity|]. intros; repeat st; reflexivity.
  - destruct (Z.eqb_spec (len new) n); [|discriminate]. injection HA as <- <-. rewrite len_app in L. pose proof (len_nonneg new).
    cbn [run_uop]. rewrite !grow_none by (cbn; lia). split; [reflexivity|]. cbn [bind]. intros; repeat st; reflexivity.
  - injection HA as <- <-. rewrite len_app in L. cbn [run_uop].
    replace (cap <? size + len new) with false by (symmetry; apply Z.ltb_ge; lia). rewrite !andb_false_r.
    split; [reflexivity|]. cbn [bind]. intros; repeat st; reflexivity.
  - destruct (the_value l r); [|discriminate]. injection HA as <- <-. rewrite len_app in L. change (len [z]) with 1 in L.
    cbn [run_uop]. unfold full. replace (size =? cap) with false by (symmetry; apply Z.eqb_neq; lia).
    destruct (assert dbg (size <=? cap)); cbn [bind]; [|split; [reflexivity|discriminate]|split; [reflexivity|discriminate]].
    rewrite !andb_false_r. split; [reflexivity|]. intros; repeat st; reflexivity.
  - injection HA as <- <-. rewrite len_app in L. change (len [x]) with 1 in L.
    cbn [run_uop]. unfold full. replace (size =? cap) with false by (symmetry; apply Z.eqb_neq; lia).
    destruct (assert dbg (size <=? cap)); cbn [bind]; [|split; [reflexivity|discriminate]|split; [reflexivity|discriminate]].
    rewrite !andb_false_r. split; [reflexivity|]. intros; repeat st; reflexivity.
  - destruct (the_value l r); [|discriminate]. injection HA as <- <-. rewrite len_app in L. change (len [z]) with 1 in L.
    cbn [run_uop]. unfold full. replace (size =? cap) with false by (symmetry; apply Z.eqb_neq; lia).
    destruct (assert dbg (size <=? cap)); cbn [bind]; [|split; [reflexivity|discriminate]|split; [reflexivity|discriminate]].
    rewrite !andb_false_r. split; [reflexivity|]. intros; repeat st; reflexivity.
  - cbn [run_uop]. split; [reflexivity|]. intros; repeat st; reflexivity.
  - cbn [run_uop]. split; [reflexivity|]. intros; repeat st; reflexivity.
  - cbn [run_uop]. split; [reflexivity|]. intros; repeat st; reflexivity.
  - cbn [run_uop]. split; [reflexivity|]. intros; repeat st; reflexivity.
  - cbn [run_uop]. split; [reflexivity|]. intros; repeat st; reflexivity.
  - cbn [run_uop]. split; [reflexivity|]. intros; repeat st; reflexivity.
  - cbn [run_uop]. split; [reflexivity|]. intros; repeat st; reflexivity.
  - destruct (Z.ltb_spec n 0); [discriminate|]. injection HA as <- <-. cbn [run_uop].
    destruct (Z.ltb_spec size n) as [G|G].
    + rewrite len_app, len_fill in L by lia. assert (len (take n l) = len l).
      { unfold take. rewrite firstn_all2; [reflexivity|unfold len in *; lia]. }
      replace (cap <? n) with false by (symmetry; apply Z.ltb_ge; lia). cbn [bind negb].
      split; [reflexivity|]. intros; repeat st; reflexivity.
    + split; [reflexivity|]. intros; repeat st; reflexivity.
  - injection HA as <- <-. rewrite len_app in L. cbn [run_uop].
    replace (cap <? size + len new) with false by (symmetry; apply Z.ltb_ge; lia). cbn [bind negb].
    split; [reflexivity|]. intros; repeat st; reflexivity.
  - destruct (Z.ltb_spec n 0); [discriminate|]. destruct (the_value l r); [|discriminate]. injection HA as <- <-. cbn [run_uop].
    destruct (Z.ltb_spec size n) as [G|G].
    + rewrite len_app, len_fill in L by lia. assert (len (take n l) = len l).
      { unfold take. rewrite firstn_all2; [reflexivity|unfold len in *; lia]. }
      replace (cap <? n) with false by (symmetry; apply Z.ltb_ge; lia). cbn [bind negb].
      split; [reflexivity|]. intros; repeat st; reflexivity.
    + split; [reflexivity|]. intros; repeat st; reflexivity.
  - destruct (Z.leb_spec 0 p), (Z.leb_spec p (len l)); cbn [andb] in HA; try discriminate. destruct (the_value l r); [|discriminate].
    injection HA as <- <-. assert (size < cap).
    { unfold len, take, drop in *. rewrite app_length in L. cbn [length] in L. rewrite firstn_length, skipn_length in L. lia. }
    cbn [run_uop]. rewrite !grow_none by (cbn; lia). split; [reflexivity|]. cbn [bind]. intros; repeat st; reflexivity.
  - destruct (Z.leb_spec 0 p), (Z.leb_spec p (len l)); cbn [andb] in HA; try discriminate.
    injection HA as <- <-. assert (size < cap).
    { unfold len, take, drop in *. rewrite app_length in L. cbn [length] in L. rewrite firstn_length, skipn_length in L. lia. }
    cbn [run_uop]. rewrite !grow_none by (cbn; lia). split; [reflexivity|]. cbn [bind]. intros; repeat st; reflexivity.
  - destruct (Z.leb_spec 0 p), (Z.leb_spec p (len l)), (Z.ltb_spec 0 n); cbn [andb] in HA; try discriminate. destruct (the_value l r); [|discriminate].
    injection HA as <- <-. assert (size + n <= cap).
    { rewrite !len_app, len_fill in L by lia. pose proof (len_take_drop p p l ltac:(lia) ltac:(lia)) as Q. rewrite len_app in Q. lia. }
    cbn [run_uop]. rewrite !grow_none by (cbn; lia). split; [reflexivity|]. cbn [bind]. intros; repeat st; reflexivity.
  - destruct (Z.leb_spec 0 p), (Z.leb_spec p (len l)); cbn [andb] in HA; try discriminate.
    injection HA as <- <-. assert (size + len new <= cap).
    { rewrite !len_app in L. pose proof (len_take_drop p p l ltac:(lia) ltac:(lia)) as Q. rewrite len_app in Q. lia. }
    pose proof (len_nonneg new).
    cbn [run_uop]. rewrite !grow_none by (cbn; lia). split; [reflexivity|]. cbn [bind]. intros; repeat st; reflexivity.
  - destruct (Z.leb_spec 0 p), (Z.leb_spec p (len l)); cbn [andb] in HA; try discriminate. destruct (the_value l r); [|discriminate].
    injection HA as <- <-. assert (size < cap).
    { unfold len, take, drop in *. rewrite app_length in L. cbn [length] in L. rewrite firstn_length, skipn_length in L. lia. }
    cbn [run_uop]. rewrite !grow_none by (cbn; lia). split; [reflexivity|]. cbn [bind]. intros; repeat st; reflexivity.
Qed.

(** reserve and shrink_to_fit *)
Lemma reserve_cap mal v l a n v' a' r c : vrep k sz v l -> run_uop k sz dbg mal v a (UReserve n) = Ok (v', a', Done r) ->
  vcapacity v = Ok c -> vcapacity v' = Ok (Z.max c n).
Proof.
  intros R H VC. destruct v as [b size cap|]; [|contradiction]. cbn in VC. injection VC as <-. cbn [run_uop] in H.
  destruct (Z.ltb_spec cap n).
  - unfold realloc_with_old_data, lift in H. repeat st; try discriminate; cbn; f_equal; lia.
  - st. cbn; f_equal; lia.
Qed.
Lemma shrink_cap mal v l a v' a' r : vrep k sz v l -> run_uop k sz dbg mal v a UShrink = Ok (v', a', Done r) ->
  vcapacity v' = Ok (len l).
Proof.
  intros R H. destruct v as [b size cap|]; [|contradiction]. destruct R as (Hs & _). cbn [run_uop] in H.
  destruct (Z.eqb_spec size cap); [st; cbn; f_equal; lia|]. destruct (Z.eqb_spec size 0); [repeat st; cbn; f_equal; lia|].
  unfold realloc_with_old_data, lift in H. repeat st; try discriminate; cbn; f_equal; lia.
Qed.
End K.
