(** stdb_vector: buffers, loops. *)
Require Import ZArith List Bool Lia.
From Verif Require Import Base BaseProofs VecSpec VecModel VecStatements.
Import ListNotations.
Open Scope Z_scope.

Definition zn (l : list Z) (i : Z) : Z := nth (Z.to_nat i) l 0.
Lemma len_nonneg l : 0 <= len l. Proof. unfold len; lia. Qed.
Lemma len_app l l' : len (l ++ l') = len l + len l'.
Proof. unfold len; rewrite app_length; lia. Qed.
Lemma len_cons x l : len (x :: l) = 1 + len l.
Proof. unfold len; cbn [length]; lia. Qed.
Lemma len_nil : len [] = 0. Proof. reflexivity. Qed.
Lemma len_take n l : 0 <= n <= len l -> len (take n l) = n.
Proof. unfold len, take; intros; rewrite firstn_length; lia. Qed.
Lemma len_drop n l : 0 <= n <= len l -> len (drop n l) = len l - n.
Proof. unfold len, drop; intros; rewrite skipn_length; lia. Qed.
Lemma len_fill n v : 0 <= n -> len (fill_with n v) = n.
Proof. unfold len, fill_with; intros; rewrite repeat_length; lia. Qed.
Lemma zn_app1 l l' i : 0 <= i < len l -> zn (l ++ l') i = zn l i.
Proof. unfold zn, len; intros; rewrite app_nth1 by lia; reflexivity. Qed.
Lemma zn_app2 l l' i : len l <= i -> zn (l ++ l') i = zn l' (i - len l).
Proof. unfold zn, len; intros; rewrite app_nth2 by lia; f_equal; lia. Qed.
Lemma nth_firstn' {A} (d : A) : forall n l i, (i < n)%nat -> nth i (firstn n l) d = nth i l d.
Proof.
  induction n as [|n IH]; intros l i H; [lia|]. destruct l as [|x l]; [reflexivity|].
  destruct i as [|i]; [reflexivity|]. cbn. apply IH; lia.
Qed.
Lemma nth_skipn' {A} (d : A) : forall n l i, nth i (skipn n l) d = nth (n + i) l d.
Proof.
  induction n as [|n IH]; intros l i; [reflexivity|]. destruct l as [|x l]; [destruct i; reflexivity|]. cbn. apply IH.
Qed.
Lemma zn_take n l i : 0 <= i < n -> zn (take n l) i = zn l i.
Proof. unfold zn, take; intros; apply nth_firstn'; lia. Qed.
Lemma zn_drop n l i : 0 <= n -> 0 <= i -> zn (drop n l) i = zn l (n + i).
Proof. unfold zn, drop; intros; rewrite nth_skipn'; f_equal; lia. Qed.
Lemma zn_fill n v i : 0 <= i < n -> zn (fill_with n v) i = v.
Proof.
  unfold zn, fill_with; intros. transitivity (nth (Z.to_nat i) (repeat v (Z.to_nat n)) v).
  - apply nth_indep; rewrite repeat_length; lia.
  - apply nth_repeat.
Qed.
Lemma zn_cons0 x l i : i = 0 -> zn (x :: l) i = x. Proof. intros ->; reflexivity. Qed.
Lemma zn_consS x l i : 0 < i -> zn (x :: l) i = zn l (i - 1).
Proof. unfold zn; intros. replace (Z.to_nat i) with (S (Z.to_nat (i - 1))) by lia. reflexivity. Qed.
Lemma at_zn l i : 0 <= i < len l -> at_ l i = Some (zn l i).
Proof.
  unfold at_, zn, len; intros. destruct (Z.ltb_spec i 0); [lia|].
  rewrite (nth_error_nth' l 0) by lia. reflexivity.
Qed.
Lemma at_inv l i x : at_ l i = Some x -> 0 <= i < len l /\ x = zn l i.
Proof.
  unfold at_; destruct (Z.ltb_spec i 0); [discriminate|]. intros E.
  assert (H1 : (Z.to_nat i < length l)%nat) by (apply nth_error_Some; congruence).
  split; [unfold len; lia|]. unfold zn. symmetry. apply nth_error_nth; assumption.
Qed.
Lemma fill_nil n v : n <= 0 -> fill_with n v = [].
Proof. intros; unfold fill_with. replace (Z.to_nat n) with O by lia. reflexivity. Qed.
Lemma take_all n l : len l <= n -> take n l = l.
Proof. unfold take, len; intros; apply firstn_all2; lia. Qed.
Lemma drop_all n l : len l <= n -> drop n l = [].
Proof. unfold drop, len; intros; apply skipn_all2; lia. Qed.
Lemma take_0 l : take 0 l = []. Proof. reflexivity. Qed.
Lemma drop_0 l : drop 0 l = l. Proof. reflexivity. Qed.

Section K.
Variable k : kind.
Variable sz : Z.
Variable dbg : bool.

Definition spare (c : cell) : Prop :=
  match k with KMove => is_live c = false | KCopy => c = Raw | _ => True end.
Definition keeps (a a' : acct) : Prop :=
  (k = KMove \/ k = KCopy -> n_lost a' = n_lost a) /\ (k = KCopy -> n_gone a' = n_gone a).
Lemma keeps_refl a : keeps a a. Proof. split; reflexivity. Qed.
Lemma keeps_trans a b c : keeps a b -> keeps b c -> keeps a c.
Proof. intros [H1 H2] [H3 H4]; split; intros H; [rewrite H3, H1|rewrite H4, H2]; auto. Qed.
Hint Resolve keeps_refl : core.

Lemma spare_raw : spare Raw. Proof. unfold spare; destruct k; reflexivity || exact I. Qed.
Hint Resolve spare_raw : core.

Lemma get_ok b i : 0 <= i < b_len b -> get b i = Ok (b_at b i).
Proof. intros; unfold get. destruct (Z.leb_spec 0 i), (Z.ltb_spec i (b_len b)); cbn; reflexivity || lia. Qed.
Lemma read_ok b i v : 0 <= i < b_len b -> b_at b i = Live v -> read b i = Ok v.
Proof. intros H E; unfold read; rewrite get_ok by assumption; cbn; rewrite E; reflexivity. Qed.
Lemma set_same b i c : b_at (set b i c) i = c.
Proof. cbn; rewrite Z.eqb_refl; reflexivity. Qed.
Lemma set_other b i c j : j <> i -> b_at (set b i c) j = b_at b j.
Proof. intros; cbn; destruct (Z.eqb_spec j i); congruence || reflexivity. Qed.
Lemma set_len b i c : b_len (set b i c) = b_len b. Proof. reflexivity. Qed.

Lemma construct_ok b a i v :
  0 <= i < b_len b -> spare (b_at b i) ->
  exists a', construct k b a i v = Ok (set b i (Live v), a') /\ keeps a a'.
Proof.
  intros H S; unfold construct; rewrite get_ok by assumption; cbn [bind].
  eexists; split; [reflexivity|]. unfold keeps, spare in *.
  destruct k; cbn in *; split; intros HH; try (destruct HH; discriminate); try discriminate HH; try reflexivity;
    try (rewrite S; cbn; lia).
Qed.

Lemma assert_ok c : c = true -> assert dbg c = Ok tt.
Proof. intros ->; unfold assert; destruct dbg; reflexivity. Qed.
Lemma assert_rel c : dbg = false -> assert dbg c = Ok tt.
Proof. intros ->; reflexivity. Qed.

(** What a loop may do to a buffer: new contents on [i, i+n), the rest untouched. *)
Definition same_out (b b' : buf) (i n : Z) : Prop :=
  b_len b' = b_len b /\ forall j, j < i \/ i + n <= j -> b_at b' j = b_at b j.

Lemma fill_loop_ok v : forall n b a i,
  0 <= i -> i + Z.of_nat n <= b_len b -> (forall j, i <= j < i + Z.of_nat n -> spare (b_at b j)) ->
  forall d, exists b' a', fill_loop k b a i n (Val v) d = Ok (b', a') /\ keeps a a' /\
    same_out b b' i (Z.of_nat n) /\ forall j, i <= j < i + Z.of_nat n -> b_at b' j = Live v.
Proof.
  induction n as [|n IH]; intros b a i H0 H1 HS d.
  - exists b, a. repeat split; auto. intros; lia.
  - cbn [fill_loop bind read_ref].
    destruct (construct_ok b a i v) as (a1 & E1 & K1); [lia|apply HS; lia|].
    rewrite E1; cbn [bind].
    destruct (IH (set b i (Live v)) a1 (i + 1)) with (d := d) as (b' & a' & E & KK & [L O] & F).
    + lia.
    + rewrite set_len; lia.
    + intros j Hj; rewrite set_other by lia; apply HS; lia.
    + exists b', a'. split; [exact E|]. split; [eapply keeps_trans; eassumption|]. split.
      * split; [exact L|]. intros j Hj. rewrite O by lia. apply set_other; lia.
      * intros j Hj. destruct (Z.eq_dec j i) as [->|].
        -- rewrite O by lia. apply set_same.
        -- apply F; lia.
Qed.

Lemma write_list_ok : forall l b a i,
  0 <= i -> i + len l <= b_len b -> (forall j, i <= j < i + len l -> spare (b_at b j)) ->
  exists b' a', write_list k b a i l = Ok (b', a') /\ keeps a a' /\
    same_out b b' i (len l) /\ forall j, i <= j < i + len l -> b_at b' j = Live (zn l (j - i)).
Proof.
  induction l as [|v l IH]; intros b a i H0 H1 HS.
  - exists b, a. repeat split; auto. rewrite len_nil; intros; lia.
  - rewrite len_cons in *. pose proof (len_nonneg l). cbn [write_list].
    destruct (construct_ok b a i v) as (a1 & E1 & K1); [lia|apply HS; lia|].
    rewrite E1; cbn [bind].
    destruct (IH (set b i (Live v)) a1 (i + 1)) as (b' & a' & E & KK & [L O] & F).
    + lia.
    + rewrite set_len; lia.
    + intros j Hj; rewrite set_other by lia; apply HS; lia.
    + exists b', a'. split; [exact E|]. split; [eapply keeps_trans; eassumption|]. split.
      * split; [exact L|]. intros j Hj. rewrite O by lia. apply set_other; lia.
      * intros j Hj. destruct (Z.eq_dec j i) as [->|].
        -- rewrite O by lia. rewrite set_same, zn_cons0 by lia. reflexivity.
        -- rewrite F by lia. rewrite zn_consS by lia. do 2 f_equal. lia.
Qed.

Lemma kill_ok b a i v : 0 <= i < b_len b -> b_at b i = Live v ->
  exists b' a', kill k b a i = Ok (b', a') /\ keeps a a' /\ spare (b_at b' i) /\
    b_len b' = b_len b /\ (forall j, j <> i -> b_at b' j = b_at b j).
Proof.
  intros H E. unfold kill, keeps, spare.
  destruct k; cbn [counted]; try (rewrite get_ok by assumption; cbn [bind]; rewrite E);
    (eexists; eexists; split; [reflexivity|]); cbn; rewrite ?Z.eqb_refl; repeat split; auto;
    intros j Hj; destruct (Z.eqb_spec j i); congruence || reflexivity.
Qed.

Lemma destroy_range_ok : forall n b a i,
  0 <= i -> i + Z.of_nat n <= b_len b ->
  (forall j, i <= j < i + Z.of_nat n -> exists v, b_at b j = Live v) ->
  exists b' a', destroy_range k b a i n = Ok (b', a') /\ keeps a a' /\
    same_out b b' i (Z.of_nat n) /\ forall j, i <= j < i + Z.of_nat n -> spare (b_at b' j).
Proof.
  induction n as [|n IH]; intros b a i H0 H1 HL.
  - exists b, a. repeat split; auto. intros; lia.
  - cbn [destroy_range].
    destruct (HL i) as [v Hv]; [lia|].
    destruct (kill_ok b a i v) as (b1 & a1 & E1 & K1 & S1 & L1 & O1); [lia|exact Hv|].
    rewrite E1; cbn [bind].
    destruct (IH b1 a1 (i + 1)) as (b' & a' & E & KK & [L O] & F).
    + lia.
    + lia.
    + intros j Hj; rewrite O1 by lia; apply HL; lia.
    + exists b', a'. split; [exact E|]. split; [eapply keeps_trans; eassumption|]. split.
      * split; [congruence|]. intros j Hj. rewrite O by lia. apply O1; lia.
      * intros j Hj. destruct (Z.eq_dec j i) as [->|].
        -- rewrite O by lia. exact S1.
        -- apply F; lia.
Qed.

Lemma count_none p f : forall n, (forall j, 0 <= j < Z.of_nat n -> p (f j) = false) -> count_cells p f n = 0.
Proof.
  induction n as [|n IH]; intros H; [reflexivity|]. cbn [count_cells].
  rewrite H by lia. rewrite IH; [reflexivity|]. intros; apply H; lia.
Qed.

Lemma free_ok b a : (forall j, 0 <= j < b_len b -> spare (b_at b j)) -> keeps a (free_buf k (Some b) a).
Proof.
  intros H. unfold free_buf. destruct (counted k) eqn:C; [|auto].
  unfold keeps; cbn. unfold spare in H.
  destruct k; cbn in *; try discriminate; split; intros HH; try (destruct HH; discriminate); try discriminate HH.
  - rewrite count_none; [lia|]. intros j Hj; apply H; lia.
  - rewrite count_none; [lia|]. intros j Hj; rewrite H by lia; reflexivity.
  - rewrite count_none; [lia|]. intros j Hj; rewrite H by lia; reflexivity.
Qed.

(** Copying between buffers. *)
Lemma copy_loop_ok src : forall n b a i,
  0 <= i -> i + Z.of_nat n <= b_len b -> i + Z.of_nat n <= b_len src ->
  (forall j, i <= j < i + Z.of_nat n -> exists v, b_at src j = Live v) ->
  (forall j, i <= j < i + Z.of_nat n -> spare (b_at b j)) ->
  exists b' a', copy_loop k src b a i n = Ok (b', a') /\ keeps a a' /\
    same_out b b' i (Z.of_nat n) /\ forall j, i <= j < i + Z.of_nat n -> b_at b' j = b_at src j.
Proof.
  induction n as [|n IH]; intros b a i H0 H1 H2 HL HS.
  - exists b, a. repeat split; auto. intros; lia.
  - cbn [copy_loop].
    destruct (HL i) as [v Hv]; [lia|].
    rewrite (read_ok src i v) by (assumption || lia). cbn [bind].
    destruct (construct_ok b a i v) as (a1 & E1 & K1); [lia|apply HS; lia|].
    rewrite E1; cbn [bind].
    destruct (IH (set b i (Live v)) a1 (i + 1)) as (b' & a' & E & KK & [L O] & F).
    + lia.
    + rewrite set_len; lia.
    + lia.
    + intros j Hj; apply HL; lia.
    + intros j Hj; rewrite set_other by lia; apply HS; lia.
    + exists b', a'. split; [exact E|]. split; [eapply keeps_trans; eassumption|]. split.
      * split; [exact L|]. intros j Hj. rewrite O by lia. apply set_other; lia.
      * intros j Hj. destruct (Z.eq_dec j i) as [->|].
        -- rewrite O by lia. rewrite set_same; congruence.
        -- apply F; lia.
Qed.

Lemma in_range_ok b i n : 0 <= i -> i + n <= b_len b -> in_range b i n = true.
Proof. intros; unfold in_range. destruct (Z.leb_spec 0 i), (Z.leb_spec (i + n) (b_len b)); cbn; reflexivity || lia. Qed.

Lemma copy_range_ok src b a n :
  k <> KReloc -> 0 < n -> n <= b_len b -> n <= b_len src ->
  (forall j, 0 <= j < n -> exists v, b_at src j = Live v) ->
  (forall j, 0 <= j < n -> spare (b_at b j)) ->
  exists b' a', copy_range k dbg src b a n = Ok (b', a') /\ keeps a a' /\
    same_out b b' 0 n /\ forall j, 0 <= j < n -> b_at b' j = b_at src j.
Proof.
  intros KR Hn H1 H2 HL HS. unfold copy_range. rewrite assert_ok by (apply Z.ltb_lt; lia). cbn [bind].
  destruct (copy_loop_ok src (Z.to_nat n) b a 0) as (b' & a' & E & KK & O & F); try lia.
  { intros; apply HL; lia. } { intros; apply HS; lia. }
  rewrite Z2Nat.id in * by lia.
  destruct k eqn:Ek; try (exists b', a'; split; [exact E|split; [exact KK|split; [exact O|exact F]]]); try congruence.
  rewrite !in_range_ok by lia. cbn [andb]. eexists; eexists; split; [reflexivity|].
  split; [auto|]. split.
  - split; [reflexivity|]. intros j Hj; cbn. destruct (Z.leb_spec 0 j), (Z.ltb_spec j n); cbn; reflexivity || lia.
  - intros j Hj; cbn. destruct (Z.leb_spec 0 j), (Z.ltb_spec j n); cbn; reflexivity || lia.
Qed.

Lemma transfer_ok src dst a i v :
  is_relocatable k = false ->
  0 <= i < b_len src -> i < b_len dst -> b_at src i = Live v -> spare (b_at dst i) ->
  exists s1 a', transfer k src dst a i i = Ok (s1, set dst i (Live v), a') /\ keeps a a' /\
    b_len s1 = b_len src /\ (forall j, j <> i -> b_at s1 j = b_at src j) /\ spare (b_at s1 i).
Proof.
  intros R H1 H2 Hv HS. unfold transfer. rewrite (read_ok src i v) by assumption. cbn [bind].
  destruct (construct_ok dst a i v) as (a1 & E1 & K1); [lia|exact HS|]. rewrite E1; cbn [bind].
  unfold spare in *. destruct k eqn:Ek; try discriminate.
  - exists (set src i Moved), a1. split; [reflexivity|]. split; [exact K1|]. split; [reflexivity|].
    split; [intros; apply set_other; assumption|rewrite set_same; reflexivity].
  - exists src, a1. split; [reflexivity|]. split; [exact K1|]. repeat split.
  - destruct (kill_ok src a1 i v H1 Hv) as (s1 & a2 & E2 & K2 & S2 & L2 & O2). rewrite Ek in E2.
    rewrite E2; cbn [bind]. exists s1, a2. split; [reflexivity|]. split; [eapply keeps_trans; eassumption|].
    unfold spare in S2; rewrite Ek in S2. auto.
Qed.

Lemma transfer_loop_ok : is_relocatable k = false -> forall n src dst a i,
  0 <= i -> i + Z.of_nat n <= b_len src -> i + Z.of_nat n <= b_len dst ->
  (forall j, i <= j < i + Z.of_nat n -> exists v, b_at src j = Live v) ->
  (forall j, i <= j < i + Z.of_nat n -> spare (b_at dst j)) ->
  exists s' d' a', transfer_loop k src dst a i n = Ok (s', d', a') /\ keeps a a' /\
    same_out src s' i (Z.of_nat n) /\ same_out dst d' i (Z.of_nat n) /\
    (forall j, i <= j < i + Z.of_nat n -> b_at d' j = b_at src j) /\
    (forall j, i <= j < i + Z.of_nat n -> spare (b_at s' j)).
Proof.
  intros R. induction n as [|n IH]; intros src dst a i H0 H1 H2 HL HS.
  - exists src, dst, a. repeat split; auto; intros; lia.
  - cbn [transfer_loop].
    destruct (HL i) as [v Hv]; [lia|].
    destruct (transfer_ok src dst a i v R) as (s1 & a1 & E1 & K1 & L1 & O1 & S1); [lia|lia|exact Hv|apply HS; lia|].
    rewrite E1; cbn [bind].
    destruct (IH s1 (set dst i (Live v)) a1 (i + 1)) as (s' & d' & a' & E & KK & [L O] & [L' O'] & F & G).
    + lia.
    + lia.
    + rewrite set_len; lia.
    + intros j Hj; rewrite O1 by lia; apply HL; lia.
    + intros j Hj; rewrite set_other by lia; apply HS; lia.
    + exists s', d', a'. split; [exact E|]. split; [eapply keeps_trans; eassumption|].
      split; [split; [congruence|]; intros j Hj; rewrite O by lia; apply O1; lia|].
      split; [split; [exact L'|]; intros j Hj; rewrite O' by lia; apply set_other; lia|].
      split; intros j Hj; destruct (Z.eq_dec j i) as [->|].
      * rewrite O' by lia. rewrite set_same; congruence.
      * rewrite F by lia. apply O1; lia.
      * rewrite O by lia. exact S1.
      * apply G; lia.
Qed.

Lemma spare_reloc c : is_relocatable k = true -> spare c.
Proof. unfold spare; destruct k; intros; discriminate || exact I. Qed.

Lemma move_wo_ok src dst a n :
  0 <= n -> n <= b_len src -> n <= b_len dst ->
  (forall j, 0 <= j < n -> exists v, b_at src j = Live v) ->
  (forall j, 0 <= j < n -> spare (b_at dst j)) ->
  exists s' d' a', move_range_without_overlap k src dst a n = Ok (s', d', a') /\ keeps a a' /\
    same_out src s' 0 n /\ same_out dst d' 0 n /\
    (forall j, 0 <= j < n -> b_at d' j = b_at src j) /\ (forall j, 0 <= j < n -> spare (b_at s' j)).
Proof.
  intros Hn H1 H2 HL HS. unfold move_range_without_overlap. destruct (is_relocatable k) eqn:R.
  - rewrite !in_range_ok by lia. cbn [andb]. eexists; eexists; eexists; split; [reflexivity|].
    split; [auto|]. split; [split; auto|]. split; [|split].
    + split; [reflexivity|]. intros j Hj; cbn. destruct (Z.leb_spec 0 j), (Z.ltb_spec j n); cbn; reflexivity || lia.
    + intros j Hj; cbn. destruct (Z.leb_spec 0 j), (Z.ltb_spec j n); cbn; reflexivity || lia.
    + intros; apply spare_reloc; assumption.
  - destruct (transfer_loop_ok R (Z.to_nat n) src dst a 0) as (s' & d' & a' & E & KK & O & O' & F & G); try lia.
    { intros; apply HL; lia. } { intros; apply HS; lia. }
    rewrite Z2Nat.id in * by lia. exists s', d', a'. auto 10.
Qed.

(** Moving inside one buffer: [s, s+n) to [d, d+n). *)
Definition moved_to (b b' : buf) (d s n : Z) : Prop :=
  b_len b' = b_len b /\
  (forall j, d <= j < d + n -> b_at b' j = b_at b (j - d + s)) /\
  (forall j, s <= j < s + n -> ~ d <= j < d + n -> spare (b_at b' j)) /\
  (forall j, ~ s <= j < s + n -> ~ d <= j < d + n -> b_at b' j = b_at b j).

Lemma shift_one_ok b a i j v :
  is_relocatable k = false -> i <> j ->
  0 <= i < b_len b -> 0 <= j < b_len b -> b_at b i = Live v -> spare (b_at b j) ->
  exists b' a', shift_one k b a i j = Ok (b', a') /\ keeps a a' /\ b_len b' = b_len b /\
    b_at b' j = Live v /\ spare (b_at b' i) /\ (forall x, x <> i -> x <> j -> b_at b' x = b_at b x).
Proof.
  intros R N H1 H2 Hv HS. unfold shift_one. rewrite (read_ok b i v) by assumption. cbn [bind].
  destruct k eqn:Ek; try discriminate.
  - destruct (construct_ok (set b i Moved) a j v) as (a1 & E1 & K1).
    { exact H2. } { rewrite set_other by congruence; exact HS. }
    rewrite Ek in E1. rewrite E1. eexists; eexists; split; [reflexivity|]. split; [exact K1|]. split; [reflexivity|].
    split; [apply set_same|]. split.
    + rewrite set_other by congruence. rewrite set_same. unfold spare; rewrite Ek; reflexivity.
    + intros x X1 X2. rewrite !set_other by congruence. reflexivity.
  - destruct (construct_ok b a j v) as (a1 & E1 & K1); [lia|exact HS|]. rewrite Ek in E1. rewrite E1.
    eexists; eexists; split; [reflexivity|]. split; [exact K1|]. split; [reflexivity|].
    split; [apply set_same|]. split; [unfold spare; rewrite Ek; exact I|].
    intros x X1 X2. rewrite set_other by congruence. reflexivity.
  - destruct (construct_ok b a j v) as (a1 & E1 & K1); [lia|exact HS|]. rewrite Ek in E1. rewrite E1. cbn [bind].
    destruct (kill_ok (set b j (Live v)) a1 i v) as (b' & a' & E & KK & SS & L & O).
    { exact H1. } { rewrite set_other by congruence; exact Hv. }
    rewrite Ek in E. rewrite E. exists b', a'. split; [reflexivity|]. split; [eapply keeps_trans; eassumption|].
    split; [exact L|]. split; [rewrite O by congruence; apply set_same|]. split; [exact SS|].
    intros x X1 X2. rewrite O by congruence. apply set_other; congruence.
Qed.

Lemma shift_up_ok : is_relocatable k = false -> forall n b a d s,
  0 <= s -> s + Z.of_nat n <= b_len b -> 0 <= d -> d + Z.of_nat n <= b_len b ->
  d < s \/ s + Z.of_nat n <= d ->
  (forall j, s <= j < s + Z.of_nat n -> exists v, b_at b j = Live v) ->
  (forall j, d <= j < d + Z.of_nat n -> ~ s <= j < s + Z.of_nat n -> spare (b_at b j)) ->
  exists b' a', shift_up k b a d s n = Ok (b', a') /\ keeps a a' /\ moved_to b b' d s (Z.of_nat n).
Proof.
  intros R. induction n as [|n IH]; intros b a d s H0 H1 H2 H3 HD HL HS.
  - exists b, a. split; [reflexivity|]. split; [auto|]. repeat split; intros; lia || reflexivity.
  - cbn [shift_up]. destruct (HL s) as [v Hv]; [lia|].
    destruct (shift_one_ok b a s d v R) as (b1 & a1 & E1 & K1 & L1 & V1 & S1 & O1); try lia; auto.
    { apply HS; lia. }
    rewrite E1; cbn [bind].
    destruct (IH b1 a1 (d + 1) (s + 1)) as (b' & a' & E & KK & L & F & G & O); try lia.
    + intros j Hj; rewrite O1 by lia; apply HL; lia.
    + intros j Hj N. destruct (Z.eq_dec j s) as [->|]; [exact S1|].
      rewrite O1 by lia. apply HS; lia.
    + exists b', a'. split; [exact E|]. split; [eapply keeps_trans; eassumption|].
      split; [congruence|]. split; [|split].
      * intros j Hj. destruct (Z.eq_dec j d) as [->|].
        -- rewrite O by lia. rewrite V1, <- Hv. f_equal; lia.
        -- rewrite F by lia. rewrite O1 by lia. f_equal; lia.
      * intros j Hj N. destruct (Z.eq_dec j s) as [->|].
        -- rewrite O by lia. exact S1.
        -- apply G; lia.
      * intros j N1 N2. rewrite O by lia. apply O1; lia.
Qed.

Lemma shift_down_ok : is_relocatable k = false -> forall n b a d s,
  0 <= s -> d + Z.of_nat n <= b_len b -> s < d ->
  (forall j, s <= j < s + Z.of_nat n -> exists v, b_at b j = Live v) ->
  (forall j, d <= j < d + Z.of_nat n -> ~ s <= j < s + Z.of_nat n -> spare (b_at b j)) ->
  exists b' a', shift_down k b a d s n = Ok (b', a') /\ keeps a a' /\ moved_to b b' d s (Z.of_nat n).
Proof.
  intros R. induction n as [|n IH]; intros b a d s H0 H1 HD HL HS.
  - exists b, a. split; [reflexivity|]. split; [auto|]. repeat split; intros; lia || reflexivity.
  - cbn [shift_down]. destruct (HL (s + Z.of_nat n)) as [v Hv]; [lia|].
    destruct (shift_one_ok b a (s + Z.of_nat n) (d + Z.of_nat n) v R) as (b1 & a1 & E1 & K1 & L1 & V1 & S1 & O1); try lia; auto.
    { apply HS; lia. }
    rewrite E1; cbn [bind].
    destruct (IH b1 a1 d s) as (b' & a' & E & KK & L & F & G & O); try lia.
    + intros j Hj; rewrite O1 by lia; apply HL; lia.
    + intros j Hj N. destruct (Z.eq_dec j (s + Z.of_nat n)) as [->|]; [exact S1|].
      rewrite O1 by lia. apply HS; lia.
    + exists b', a'. split; [exact E|]. split; [eapply keeps_trans; eassumption|].
      split; [congruence|]. split; [|split].
      * intros j Hj. destruct (Z.eq_dec j (d + Z.of_nat n)) as [->|].
        -- rewrite O by lia. rewrite V1, <- Hv. f_equal; lia.
        -- rewrite F by lia. rewrite O1 by lia. reflexivity.
      * intros j Hj N. destruct (Z.eq_dec j (s + Z.of_nat n)) as [->|].
        -- rewrite O by lia. exact S1.
        -- apply G; lia.
      * intros j N1 N2. rewrite O by lia. apply O1; lia.
Qed.

Lemma move_forward_ok b a d s e :
  0 <= s <= e -> e <= b_len b -> 0 <= d -> d + (e - s) <= b_len b -> d < s \/ e <= d -> d <> s ->
  (forall j, s <= j < e -> exists v, b_at b j = Live v) ->
  (forall j, d <= j < d + (e - s) -> ~ s <= j < e -> spare (b_at b j)) ->
  exists b' a', move_forward k dbg b a d s e = Ok (b', a') /\ keeps a a' /\ moved_to b b' d s (e - s).
Proof.
  intros H0 H1 H2 H3 HD N HL HS. unfold move_forward, move_range_forward.
  rewrite assert_ok by (destruct (Z.eqb_spec d s); [lia|reflexivity]). cbn [bind].
  rewrite assert_ok by (apply Z.leb_le; lia). cbn [bind].
  rewrite assert_ok by (destruct (Z.ltb_spec d s), (Z.leb_spec e d); cbn; reflexivity || lia). cbn [bind].
  destruct (is_relocatable k) eqn:R.
  - rewrite !in_range_ok by lia. cbn [andb]. eexists; eexists; split; [reflexivity|]. split; [auto|].
    split; [reflexivity|]. split; [|split]; intros j Hj; cbn.
    + destruct (Z.leb_spec d j), (Z.ltb_spec j (d + (e - s))); cbn; reflexivity || lia.
    + intros; apply spare_reloc; assumption.
    + intros N2. destruct (Z.leb_spec d j), (Z.ltb_spec j (d + (e - s))); cbn; reflexivity || lia.
  - destruct (shift_up_ok R (Z.to_nat (e - s)) b a d s) as (b' & a' & E & KK & M); try lia.
    { intros; apply HL; lia. } { intros; apply HS; lia. }
    rewrite Z2Nat.id in M by lia. exists b', a'. auto.
Qed.

Lemma store_ok b i v : k = KTriv -> 0 <= i < b_len b -> store k b i v = Ok (set b i (Live v)).
Proof. intros -> H. unfold store. rewrite get_ok by assumption. reflexivity. Qed.

Lemma store_down_ok : k = KTriv -> forall n b d s,
  0 <= s -> d + Z.of_nat n <= b_len b -> s < d ->
  (forall j, s <= j < s + Z.of_nat n -> exists v, b_at b j = Live v) ->
  exists b', store_down k b d s n = Ok b' /\ moved_to b b' d s (Z.of_nat n).
Proof.
  intros R. induction n as [|n IH]; intros b d s H0 H1 HD HL.
  - exists b. split; [reflexivity|]. repeat split; intros; lia || reflexivity.
  - cbn [store_down]. destruct (HL (s + Z.of_nat n)) as [v Hv]; [lia|].
    rewrite (read_ok b _ v) by (assumption || lia). cbn [bind].
    rewrite store_ok by (assumption || lia). cbn [bind].
    destruct (IH (set b (d + Z.of_nat n) (Live v)) d s) as (b' & E & L & F & G & O); try lia.
    + rewrite set_len; lia.
    + intros j Hj; rewrite set_other by lia; apply HL; lia.
    + exists b'. split; [exact E|].
      split; [exact L|]. split; [|split].
      * intros j Hj. destruct (Z.eq_dec j (d + Z.of_nat n)) as [->|].
        -- rewrite O by lia. rewrite set_same, <- Hv. f_equal; lia.
        -- rewrite F by lia. apply set_other; lia.
      * intros j Hj N. apply spare_reloc; rewrite R; reflexivity.
      * intros j N1 N2. rewrite O by lia. apply set_other; lia.
Qed.

Lemma move_backward_ok b a d s e :
  k <> KReloc -> 0 <= s < e - 1 -> s < d -> d + (e - s) <= b_len b ->
  (forall j, s <= j < e -> exists v, b_at b j = Live v) ->
  (forall j, d <= j < d + (e - s) -> ~ s <= j < e -> spare (b_at b j)) ->
  exists b' a', move_backward k dbg b a d s e = Ok (b', a') /\ keeps a a' /\ moved_to b b' d s (e - s).
Proof.
  intros KR H0 HD H3 HL HS. unfold move_backward.
  rewrite assert_ok by (apply Z.ltb_lt; lia). cbn [bind].
  rewrite assert_ok by (destruct (Z.eqb_spec d s); [lia|reflexivity]). cbn [bind].
  destruct (is_relocatable k) eqn:R.
  - assert (KT : k = KTriv) by (destruct k; congruence || discriminate).
    destruct (store_down_ok KT (Z.to_nat (e - s)) b d s) as (b' & E & M); try lia.
    { intros; apply HL; lia. }
    rewrite E; cbn [bind]. rewrite Z2Nat.id in M by lia. exists b', a. auto.
  - destruct (shift_down_ok R (Z.to_nat (e - s)) b a d s) as (b' & a' & E & KK & M); try lia.
    { intros; apply HL; lia. } { intros; apply HS; lia. }
    rewrite Z2Nat.id in M by lia. exists b', a'. auto.
Qed.

Lemma open_gap_ok b a pos n size :
  k <> KReloc -> 0 <= pos <= size -> 0 < n -> size + n <= b_len b ->
  (forall j, pos <= j < size -> exists v, b_at b j = Live v) ->
  (forall j, size <= j < size + n -> spare (b_at b j)) ->
  exists b' a', open_gap k dbg b a pos n size = Ok (b', a') /\ keeps a a' /\ moved_to b b' (pos + n) pos (size - pos).
Proof.
  intros KR H0 Hn H1 HL HS. unfold open_gap. destruct (Z.leb_spec size (pos + n)).
  - destruct (move_forward_ok b a (pos + n) pos size) as (b' & a' & E & KK & M); try lia.
    { intros; apply HL; lia. } { intros; apply HS; lia. }
    exists b', a'. auto.
  - destruct (move_backward_ok b a (pos + n) pos size) as (b' & a' & E & KK & M); try lia; auto.
    { intros; apply HS; lia. }
    exists b', a'. auto.
Qed.
Lemma open_gap1_ok b a pos size :
  k <> KReloc -> 0 <= pos < size -> size + 1 <= b_len b ->
  (forall j, pos <= j < size -> exists v, b_at b j = Live v) ->
  spare (b_at b size) ->
  exists b' a', open_gap1 k dbg b a pos size = Ok (b', a') /\ keeps a a' /\ moved_to b b' (pos + 1) pos (size - pos).
Proof.
  intros KR H0 H1 HL HS. unfold open_gap1. destruct (Z.ltb_spec pos (size - 1)).
  - destruct (move_backward_ok b a (pos + 1) pos size) as (b' & a' & E & KK & M); try lia; auto.
    { intros j ? ?; replace j with size by lia; assumption. }
    exists b', a'. auto.
  - destruct (move_forward_ok b a (pos + 1) pos size) as (b' & a' & E & KK & M); try lia; auto.
    { intros j ? ?; replace j with size by lia; assumption. }
    exists b', a'. auto.
Qed.

(** The erase loop. *)
Lemma erase_loop_ok test p : (forall b v, test b v = Ok (p v)) -> forall l b a src dst er,
  0 <= dst <= src -> src + len l <= b_len b ->
  (forall j, src <= j < src + len l -> b_at b j = Live (zn l (j - src))) ->
  (forall j, dst <= j < src -> spare (b_at b j)) ->
  (k = KReloc -> forall j, dst <= j < src -> exists v, b_at b j = Live v) ->
  let l' := filter (fun v => negb (p v)) l in
  exists b' a', erase_loop k test b a src dst er (length l) = Ok (b', a', er + (len l - len l')) /\ keeps a a' /\
    b_len b' = b_len b /\
    (forall j, dst <= j < dst + len l' -> b_at b' j = Live (zn l' (j - dst))) /\
    (forall j, dst + len l' <= j < src + len l -> spare (b_at b' j)) /\
    (forall j, j < dst \/ src + len l <= j -> b_at b' j = b_at b j).
Proof.
  intros HT. induction l as [|v l IH]; intros b a src dst er H0 H1 HL HS HR l'.
  - subst l'; cbn. rewrite len_nil in *. exists b, a. rewrite !Z.add_0_r.
    split; [reflexivity|]. split; [auto|]. split; [reflexivity|]. split; [intros; lia|]. split; [|reflexivity].
    intros; apply HS; lia.
  - rewrite len_cons in *. pose proof (len_nonneg l) as Hl0. cbn [erase_loop length].
    assert (Hv : b_at b src = Live v) by (rewrite HL, zn_cons0 by lia; reflexivity).
    rewrite (read_ok b src v) by (assumption || lia). cbn [bind]. rewrite HT. cbn [bind].
    assert (HL' : forall j, src + 1 <= j < src + 1 + len l -> b_at b j = Live (zn l (j - (src + 1)))).
    { intros j Hj. rewrite HL by lia. rewrite zn_consS by lia. do 2 f_equal. lia. }
    subst l'; cbn [filter]. destruct (p v) eqn:Pv; cbn [negb].
    + (* erased *)
      assert (X : exists b1 a1, (if is_relocatable k then Ok (b, a) else kill k b a src) = Ok (b1, a1) /\ keeps a a1 /\
          spare (b_at b1 src) /\ b_len b1 = b_len b /\ (forall j, j <> src -> b_at b1 j = b_at b j) /\
          (k = KReloc -> b1 = b)).
      { destruct (is_relocatable k) eqn:R.
        - exists b, a. split; [reflexivity|]. split; [auto|]. split; [apply spare_reloc; exact R|]. auto.
        - destruct (kill_ok b a src v) as (b1 & a1 & E & KK & S1 & L1 & O1); [lia|exact Hv|].
          exists b1, a1. do 5 (split; [assumption|]). intros ->; discriminate. }
      destruct X as (b1 & a1 & E1 & K1 & S1 & L1 & O1 & R1). rewrite E1; cbn [bind].
      destruct (IH b1 a1 (src + 1) dst (er + 1)) as (b' & a' & E & KK & L & F & G & O).
      * lia.
      * lia.
      * intros j Hj; rewrite O1 by lia; apply HL'; lia.
      * intros j Hj. destruct (Z.eq_dec j src) as [->|]; [exact S1|]. rewrite O1 by lia. apply HS; lia.
      * intros Ek j Hj. rewrite R1 by exact Ek. destruct (Z.eq_dec j src) as [->|]; [eauto|]. apply HR; [exact Ek|lia].
      * exists b', a'. split; [rewrite E; apply f_equal; apply f_equal2; [reflexivity|lia]|]. split; [eapply keeps_trans; eassumption|].
        split; [congruence|]. split; [exact F|]. split; [intros; apply G; lia|].
        intros j Hj. rewrite O by lia. apply O1; lia.
    + (* kept *)
      assert (X : exists b1 a1, (if dst =? src then Ok (b, a)
           else if is_relocatable k then do b1 <- store k b dst v; Ok (b1, a)
           else shift_one k b a src dst) = Ok (b1, a1) /\ keeps a a1 /\
          b_len b1 = b_len b /\ b_at b1 dst = Live v /\ (forall j, j <> src -> j <> dst -> b_at b1 j = b_at b j) /\
          (dst <> src -> spare (b_at b1 src)) /\ (k = KReloc -> dst <> src -> exists w, b_at b1 src = Live w)).
      { destruct (Z.eqb_spec dst src) as [->|N].
        - exists b, a. split; [reflexivity|]. split; [auto|]. split; [reflexivity|]. split; [exact Hv|]. split; [auto|].
          split; congruence.
        - destruct (is_relocatable k) eqn:R.
          + assert (ST : store k b dst v = Ok (set b dst (Live v))).
            { unfold store. rewrite get_ok by lia. cbn [bind]. destruct k eqn:Ek; try discriminate; [reflexivity|].
              destruct (HR eq_refl dst) as [w Hw]; [lia|]. rewrite Hw; reflexivity. }
            rewrite ST; cbn [bind]. exists (set b dst (Live v)), a.
            split; [reflexivity|]. split; [auto|]. split; [reflexivity|]. split; [apply set_same|].
            split; [intros; apply set_other; assumption|]. split; [intros; apply spare_reloc; exact R|].
            intros; rewrite set_other by congruence. eauto.
          + destruct (shift_one_ok b a src dst v R) as (b1 & a1 & E1 & K1 & L1 & V1 & S1 & O1); try lia; auto.
            { apply HS; lia. }
            exists b1, a1. split; [exact E1|]. split; [exact K1|]. split; [exact L1|]. split; [exact V1|]. split; [exact O1|].
            split; [auto|]. intros ->; discriminate. }
      destruct X as (b1 & a1 & E1 & K1 & L1 & V1 & O1 & S1 & R1). rewrite E1; cbn [bind].
      destruct (IH b1 a1 (src + 1) (dst + 1) er) as (b' & a' & E & KK & L & F & G & O).
      * lia.
      * lia.
      * intros j Hj; rewrite O1 by lia; apply HL'; lia.
      * intros j Hj. destruct (Z.eq_dec j src) as [->|]; [apply S1; lia|]. rewrite O1 by lia. apply HS; lia.
      * intros Ek j Hj. destruct (Z.eq_dec j src) as [->|]; [apply R1; [exact Ek|lia]|].
        rewrite O1 by lia. apply HR; [exact Ek|lia].
      * exists b', a'. rewrite len_cons. split; [rewrite E; apply f_equal; apply f_equal2; [reflexivity|lia]|]. split; [eapply keeps_trans; eassumption|].
        split; [congruence|]. split; [|split].
        -- intros j Hj. destruct (Z.eq_dec j dst) as [->|].
           ++ rewrite O by lia. rewrite V1, zn_cons0 by lia. reflexivity.
           ++ rewrite F by lia. rewrite zn_consS by lia. do 2 f_equal. lia.
        -- intros; apply G; lia.
        -- intros j Hj. rewrite O by lia. apply O1; lia.
Qed.
End K.
