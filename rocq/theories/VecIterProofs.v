(** Iterators of stdb_vector are positions. *)
Require Import ZArith List Bool Lia.
From Verif Require Import Base BaseProofs VecSpec VecModel VecStatements VecProofs VecProofs2 VecProofs3 VecProofs4 VecProofs5
  VecIterSpec VecIterModel VecIterStatements.
Import ListNotations.
Open Scope Z_scope.

Lemma skipn_skipn' {A} (l : list A) : forall m n, skipn n (skipn m l) = skipn (n + m) l.
Proof.
  induction l as [|x l IH]; intros m n; [rewrite !skipn_nil; reflexivity|].
  destruct m as [|m]; [rewrite Nat.add_0_r; reflexivity|]. replace (n + S m)%nat with (S (n + m)) by lia. cbn. apply IH.
Qed.
Lemma firstn_S_snoc {A} (l : list A) : forall n x, nth_error l n = Some x -> firstn (S n) l = firstn n l ++ [x].
Proof.
  induction l as [|y l IH]; intros [|n] x E; cbn in E; try discriminate.
  - injection E as ->. reflexivity.
  - cbn [firstn app]. f_equal. apply IH; exact E.
Qed.

Lemma F2_weaken {A B} (P Q : A -> B -> Prop) : (forall x y, P x y -> Q x y) -> forall l l', Forall2 P l l' -> Forall2 Q l l'.
Proof. intros H l l' F. induction F; constructor; auto. Qed.

Section K.
Variable k : kind.
Variable sz : Z.
Variable dbg : bool.
Hypothesis SZ : size_ok sz.
Notation vrep := (vrep k sz).

Definition pts (v : vec) (n : Z) (p : iter) (q : place) : Prop :=
  points v p q /\ match q with Some z => 0 <= z <= n | None => True end.

Lemma reg_ok v n rs ps i q : Forall2 (pts v n) rs ps -> nth_error ps i = Some q -> exists p, reg rs i = Ok p /\ pts v n p q.
Proof.
  unfold reg. intros H. revert i. induction H as [|p q' rs ps P H IH]; intros [|i] E; cbn in *; try discriminate.
  - injection E as ->. eauto.
  - apply IH; exact E.
Qed.
Lemma place_ok v n rs ps i z : Forall2 (pts v n) rs ps -> place_of ps i = Some z -> exists p, reg rs i = Ok p /\ pts v n p (Some z).
Proof.
  unfold place_of. intros H E. destruct (nth_error ps i) as [q|] eqn:N; [|discriminate]. subst q. eapply reg_ok; eassumption.
Qed.
Lemma exists_ok v n rs ps i : Forall2 (pts v n) rs ps -> exists_ ps i = true -> exists p, reg rs i = Ok p.
Proof.
  intros H E. apply Nat.ltb_lt in E. apply nth_error_Some in E. destruct (nth_error ps i) as [q|] eqn:N; [|congruence].
  destruct (reg_ok v n rs ps i q H N) as (p & R & _). eauto.
Qed.
Lemma F2_set {A B} (P : A -> B -> Prop) i x y : forall l l', Forall2 P l l' -> P x y -> Forall2 P (lset i x l) (lset i y l').
Proof. induction i as [|i IH]; intros l l' H XY; destruct H; cbn; constructor; auto. Qed.
Lemma F2_one {A B} (P : A -> B -> Prop) l l' x y : Forall2 P l l' -> P x y -> Forall2 P (l ++ [x]) (l' ++ [y]).
Proof. intros; apply Forall2_app; auto. Qed.
Lemma lset_comm {A} i j (x y : A) : i <> j -> forall l, lset i x (lset j y l) = lset j y (lset i x l).
Proof.
  revert j. induction i as [|i IH]; intros j N [|z l]; destruct j as [|j]; cbn; try reflexivity; try congruence.
  rewrite IH by congruence. reflexivity.
Qed.
Lemma lset_idem {A} i (x y : A) : forall l, lset i x (lset i y l) = lset i x l.
Proof. induction i as [|i IH]; intros [|z l]; cbn; try reflexivity. rewrite IH; reflexivity. Qed.
Lemma reg_lset rs i p : reg rs i = Ok p -> lset i p rs = rs.
Proof. unfold reg. destruct (nth_error rs i) eqn:E; [|discriminate]. intros [= ->]. apply lset_same; assumption. Qed.

Lemma advance_ok v l p z n q : vrep v l -> pts v (len l) p (Some z) -> to l (z + n) = Some q ->
  exists p', advance v p n = Ok p' /\ pts v (len l) p' (Some q) /\ q = z + n.
Proof.
  unfold to. intros R [P B] T. destruct (Z.leb_spec 0 (z + n)), (Z.leb_spec (z + n) (len l)); cbn [andb] in T; try discriminate.
  injection T as <-. destruct v as [b size cap|]; [|contradiction]. destruct R as (Hs & Hc & _ & HB).
  destruct b as [b|]; cbn in P.
  - subst p. destruct HB as (_ & BL & _). exists (Some (z + n)). cbn [advance]. rewrite BL.
    replace (0 <=? z + n) with true by (symmetry; apply Z.leb_le; lia).
    replace (z + n <=? cap) with true by (symmetry; apply Z.leb_le; lia). cbn [andb].
    split; [reflexivity|]. split; [split; [reflexivity|lia]|reflexivity].
  - destruct P as [-> ->]. assert (n = 0) by lia. subst n. exists None. split; [reflexivity|]. split; [split; [split; reflexivity|lia]|lia].
Qed.
Lemma deref_ok v l p z x : vrep v l -> pts v (len l) p (Some z) -> at_ l z = Some x -> deref v p = Ok x.
Proof.
  intros R [P B] A. apply at_inv in A. destruct A as [A ->]. destruct v as [b size cap|]; [|contradiction]. destruct R as (Hs & Hc & _ & HB).
  destruct b as [b|]; cbn in P; [|lia]. subst p. destruct HB as (_ & BL & BV & _). cbn [deref]. unfold read.
  rewrite get_ok by lia. cbn [bind]. rewrite BV by lia. reflexivity.
Qed.
Lemma put_ok v l p z x l1 : vrep v l -> pts v (len l) p (Some z) -> with_value l z x = Some l1 ->
  exists v1, put k v p x = Ok v1 /\ (forall mal a, run_uop k sz dbg mal v a (USet z (Val x)) = Ok (v1, a, Done 0)) /\
    apply (USet z (Val x)) l = Some (l1, 0) /\ len l1 = len l /\ (forall q y, points v q y -> points v1 q y).
Proof.
  unfold with_value. intros R [P B] W. destruct (Z.leb_spec 0 z), (Z.ltb_spec z (len l)); cbn [andb] in W; try discriminate.
  injection W as <-. destruct v as [b size cap|]; [|contradiction]. pose proof R as (Hs & Hc & _ & HB).
  destruct b as [b|]; cbn in P; [|lia]. subst p. destruct HB as (_ & BL & BV & _).
  assert (ST : store k b z x = Ok (set b z (Live x))).
  { unfold store. rewrite get_ok by lia. cbn [bind]. rewrite BV by lia. destruct k; reflexivity. }
  exists (Vec (Some (set b z (Live x))) size cap). cbn [put]. rewrite ST. split; [reflexivity|]. split; [|split; [|split]].
  - intros mal a. cbn [run_uop]. rewrite assert_ok by (apply andb_true_intro; split; [apply Z.leb_le|apply Z.ltb_lt]; lia).
    cbn [bind need read_ref]. rewrite ST. reflexivity.
  - cbn [apply the_value]. replace (0 <=? z) with true by (symmetry; apply Z.leb_le; lia).
    replace (z <? len l) with true by (symmetry; apply Z.ltb_lt; lia). reflexivity.
  - unfold len, take, drop in *. rewrite app_length. cbn [length]. rewrite firstn_length, skipn_length. lia.
  - intros q [y|]; cbn; tauto.
Qed.

(** Either nothing changes, or one element as by assigning to it. *)
Definition changed (v : vec) (l : list Z) (v1 : vec) (l1 : list Z) : Prop :=
  v1 = v /\ l1 = l \/
  exists z x, (forall mal a, run_uop k sz dbg mal v a (USet z (Val x)) = Ok (v1, a, Done 0)) /\ apply (USet z (Val x)) l = Some (l1, 0).

Lemma bindo_some {A B} (o : option A) (f : A -> option B) y : bindo o f = Some y -> exists x, o = Some x /\ f x = Some y.
Proof. destruct o; cbn; [eauto|discriminate]. Qed.

Lemma istep_ok v l rs ps c l1 ps1 x : vrep v l -> Forall2 (pts v (len l)) rs ps -> forwards c ->
  imeaning l ps c = Some (l1, ps1, x) ->
  exists v1 rs1, istep k v rs c = Ok (v1, rs1, x) /\ Forall2 (pts v1 (len l1)) rs1 ps1 /\ changed v l v1 l1.
Proof.
  intros R F FW M.
  assert (BE : exists p, begin_ v = Ok p /\ pts v (len l) p (Some 0)).
  { pose proof (len_nonneg l). destruct v as [[b|] size cap|]; [| |contradiction]; cbn.
    - exists (Some 0). split; [reflexivity|]. split; [reflexivity|lia].
    - exists None. split; [reflexivity|]. split; [split; reflexivity|lia]. }
  assert (EN : exists p, end_ v = Ok p /\ pts v (len l) p (Some (len l))).
  { pose proof (len_nonneg l). destruct v as [[b|] size cap|]; [| |contradiction]; cbn; destruct R as (Hs & Hc & _ & HB).
    - exists (Some size). subst size. split; [reflexivity|]. split; [reflexivity|lia].
    - exists None. split; [reflexivity|]. split; [split; [lia|reflexivity]|lia]. }
  assert (NN : pts v (len l) None None) by (split; [reflexivity|exact I]).
  Local Ltac inv := match goal with
    | M : bindo _ _ = Some _ |- _ => apply bindo_some in M; destruct M as (? & ? & M)
    | M : (if ?b then _ else None) = Some _ |- _ => destruct b eqn:?; [|discriminate M]
    end.
  destruct c; cbn [imeaning] in M; repeat inv; injection M as <- <- <-; cbn [istep].
  Local Ltac fin_ := (split; [reflexivity|]); (split; [|left; split; reflexivity]);
    repeat first [assumption | apply F2_one | apply F2_set].
  Local Ltac look := match goal with
    | F : Forall2 _ ?rs ?ps, E : nth_error ?ps ?i = Some _ |- context [reg ?rs ?i] =>
        let RG := fresh "RG" in destruct (reg_ok _ _ _ _ _ _ F E) as (? & RG & ?); rewrite RG; cbn [bind]
    | F : Forall2 _ ?rs ?ps, E : place_of ?ps ?i = Some _ |- context [reg ?rs ?i] =>
        let RG := fresh "RG" in destruct (place_ok _ _ _ _ _ _ F E) as (? & RG & ?); rewrite RG; cbn [bind]
    | F : Forall2 _ ?rs ?ps, E : exists_ ?ps ?i = true |- context [reg ?rs ?i] =>
        let RG := fresh "RG" in destruct (exists_ok _ _ _ _ _ F E) as (? & RG); rewrite RG; cbn [bind]
    end.
  Local Ltac go := eexists; eexists; fin_.
  Local Ltac adv := match goal with
    | T : to _ (?z + ?n) = Some _, P : pts _ _ ?p (Some ?z), R : VecProofs2.vrep _ _ _ _ |- context [advance _ ?p ?m] =>
        change m with n; destruct (advance_ok _ _ _ _ _ _ R P T) as (? & AV & ? & ->); rewrite AV; cbn [bind]
    end.
  - go.
  - destruct BE as (p & -> & P). cbn [bind]. go.
  - destruct EN as (p & -> & P). cbn [bind]. go.
  - look. go.
  - look. go.
  - look. go.
  - destruct (exists_ok _ _ _ _ _ F Heqb) as (? & RG'). rewrite RG'. cbn [bind]. look. go.
  - destruct (exists_ok _ _ _ _ _ F Heqb) as (? & RG'). rewrite RG'. cbn [bind]. look.
    destruct (Nat.eqb_spec i j) as [->|NE].
    + rewrite lset_idem. rewrite (reg_lset _ _ _ RG). go.
    + rewrite lset_comm by exact NE. go.
  - look. adv. go.
  - look. adv. go.
  - look. unfold Z.sub in *. adv. go.
  - look. unfold Z.sub in *. adv. go.
  - look. adv. go.
  - look. unfold Z.sub in *. adv. go.
  - look. adv. go.
  - look. adv. go.
  - look. unfold Z.sub in *. adv. go.
  - look. look.
    match goal with |- context [distance ?a ?b] => assert (D : distance a b = Ok (x0 - x1)) end.
    { destruct H1 as [P1 _], H2 as [P2 _]. destruct v as [[b|] size cap|]; [| |contradiction]; cbn in P1, P2.
      - subst. reflexivity.
      - destruct P1 as [-> ->], P2 as [-> ->]. reflexivity. }
    rewrite D. cbn [bind]. go.
  - look. look.
    match goal with |- context [compare_ ?a ?b] => assert (D : compare_ a b = Ok (sign (x0 - x1))) end.
    { destruct H1 as [P1 _], H2 as [P2 _]. destruct v as [[b|] size cap|]; [| |contradiction]; cbn in P1, P2.
      - subst. cbn. unfold sign. rewrite Z.compare_sub. reflexivity.
      - destruct P1 as [-> ->], P2 as [-> ->]. reflexivity. }
    rewrite D. cbn [bind]. go.
  - look. rewrite (deref_ok _ _ _ _ _ R H1 H0). cbn [bind]. go.
  - look. cbn in FW. pose proof (at_inv _ _ _ H0) as [A _].
    assert (NM : n mod M64 = n).
    { apply Z.mod_small. destruct v as [b size cap|]; [|contradiction]. destruct R as (Hs & Hc & Hb & _). destruct SZ, H1 as [_ ?].
      unfold HALF, M64 in *. nia. }
    unfold at_offset. rewrite NM.
    assert (T : to l (x0 + n) = Some (x0 + n)) by (unfold to; destruct (Z.leb_spec 0 (x0 + n)), (Z.leb_spec (x0 + n) (len l)); try lia; reflexivity).
    destruct (advance_ok _ _ _ _ _ _ R H1 T) as (p' & -> & H2 & _). cbn [bind]. rewrite (deref_ok _ _ _ _ _ R H2 H0). cbn [bind]. go.
  - look. destruct (put_ok _ _ _ _ _ _ R H1 H0) as (v1 & E1 & E2 & E3 & E4 & E5). rewrite E1. cbn [bind].
    exists v1, rs. split; [reflexivity|]. split; [|right; eauto]. rewrite E4.
    eapply F2_weaken; [|exact F]. intros q y [Q1 Q2]. split; auto.
  - look. cbn in FW. assert (A : 0 <= x1 + n < len l).
    { unfold with_value in H0. destruct (Z.leb_spec 0 (x1 + n)), (Z.ltb_spec (x1 + n) (len l)); try discriminate; lia. }
    assert (NM : n mod M64 = n).
    { apply Z.mod_small. destruct v as [b size cap|]; [|contradiction]. destruct R as (Hs & Hc & Hb & _). destruct SZ, H1 as [_ ?].
      unfold HALF, M64 in *. nia. }
    unfold at_offset. rewrite NM.
    assert (T : to l (x1 + n) = Some (x1 + n)) by (unfold to; destruct (Z.leb_spec 0 (x1 + n)), (Z.leb_spec (x1 + n) (len l)); try lia; reflexivity).
    destruct (advance_ok _ _ _ _ _ _ R H1 T) as (p' & -> & H2 & _). cbn [bind]. destruct (put_ok _ _ _ _ _ _ R H2 H0) as (v1 & E1 & E2 & E3 & E4 & E5). rewrite E1. cbn [bind].
    exists v1, rs. split; [reflexivity|]. split; [|right; eauto]. rewrite E4.
    eapply F2_weaken; [|exact F]. intros q y [Q1 Q2]. split; auto.
Qed.

Lemma vupd_get i x y : forall l, nth_error l i = Some y -> nth_error (vupd i x l) i = Some x.
Proof. induction i as [|i IH]; intros [|z l] E; cbn in *; try discriminate; [reflexivity|]. eauto. Qed.
Lemma lget_lset {A} i (x : A) : forall l, lget l i <> None -> lget (lset i (Some x) l) i = Some x.
Proof.
  unfold lget. induction i as [|i IH]; intros [|y l] H; cbn in *; try congruence. apply IH; exact H.
Qed.
Lemma with_idem s i v1 v2 : with_vec (with_vec s i v1) i v2 = with_vec s i v2.
Proof. unfold with_vec; cbn. rewrite vupd_idem. reflexivity. Qed.
Lemma with_same s i v : nth_error (vs s) i = Some (Some v) -> with_vec s i v = s.
Proof. intros E. unfold with_vec. rewrite vupd_same by exact E. destruct s; reflexivity. Qed.

Theorem irun_ok : forall cs s ss i v l rs ps l1 ps1 xs,
  vreach k sz dbg s ss -> nth_error (vs s) i = Some (Some v) -> lget ss i = Some l ->
  Forall2 (pts v (len l)) rs ps -> Forall forwards cs -> imeanings l ps cs = Some (l1, ps1, xs) ->
  exists v1 rs1, irun k v rs cs = Ok (v1, rs1, xs) /\ Forall2 (pts v1 (len l1)) rs1 ps1 /\
    vreach k sz dbg (with_vec s i v1) (lset i (Some l1) ss).
Proof.
  induction cs as [|c cs IH]; intros s ss i v l rs ps l1 ps1 xs H E L F FW M; cbn [imeanings irun] in *.
  - injection M as <- <- <-. exists v, rs. split; [reflexivity|]. split; [exact F|].
    rewrite with_same by exact E. rewrite lset_same; [exact H|].
    unfold lget in L. destruct (nth_error ss i); congruence.
  - apply bindo_some in M. destruct M as ([[l2 ps2] x] & M1 & M). apply bindo_some in M. destruct M as ([[l3 ps3] ys] & M2 & M).
    injection M as <- <- <-. inversion FW as [|? ? FC FR]; subst.
    destruct (vreach_inv k sz dbg SZ s ss H) as [RR _]. destruct (srep_get' k sz s ss i v RR E) as (l' & L' & R).
    assert (l' = l) by congruence. subst l'.
    destruct (istep_ok v l rs ps c l2 ps2 x R F FC M1) as (v2 & rs2 & ST & FF & CH). rewrite ST. cbn [bind].
    assert (H2 : vreach k sz dbg (with_vec s i v2) (lset i (Some l2) ss)).
    { destruct CH as [[-> ->]|(z & y & RU & AP)].
      - rewrite with_same by exact E. rewrite lset_same; [exact H|]. unfold lget in L. destruct (nth_error ss i); congruence.
      - eapply (vreach_done k sz dbg s ss (fun _ => false) (VOn i (USet z (Val y)))).
        + exact H.
        + intros n C; discriminate C.
        + cbn [allowed_v]. unfold vget. rewrite E. destruct v as [b size cap|]; [|contradiction]. split; [|exact I]. unfold kind_ok. destruct k; exact I.
        + cbn [vapply]. rewrite L, AP. reflexivity.
        + cbn [vstep]. unfold vget. rewrite E. cbn [bind]. rewrite RU. reflexivity. }
    destruct (IH (with_vec s i v2) (lset i (Some l2) ss) i v2 l2 rs2 ps2 l3 ps3 ys H2) as (v3 & rs3 & RN & F3 & H3); auto.
    + cbn [with_vec vs]. eapply vupd_get; exact E.
    + apply lget_lset. congruence.
    + rewrite RN. cbn [bind]. exists v3, rs3. split; [reflexivity|]. split; [exact F3|].
      rewrite with_idem in H3. rewrite lset_idem in H3. exact H3.
Qed.

(** The two loops. *)
Lemma compare_at v l p q z y : vrep v l -> pts v (len l) p (Some z) -> pts v (len l) q (Some y) -> compare_ p q = Ok (sign (z - y)).
Proof.
  intros R [P1 _] [P2 _]. destruct v as [[b|] size cap|]; [| |contradiction]; cbn in P1, P2.
  - subst. cbn. unfold sign. rewrite Z.compare_sub. reflexivity.
  - destruct P1 as [-> ->], P2 as [-> ->]. reflexivity.
Qed.
Lemma begin_at v l : vrep v l -> exists p, begin_ v = Ok p /\ pts v (len l) p (Some 0).
Proof.
  intros R. pose proof (len_nonneg l). destruct v as [[b|] size cap|]; [| |contradiction]; cbn.
  - exists (Some 0). split; [reflexivity|]. split; [reflexivity|lia].
  - exists None. split; [reflexivity|]. split; [split; reflexivity|lia].
Qed.
Lemma end_at v l : vrep v l -> exists p, end_ v = Ok p /\ pts v (len l) p (Some (len l)).
Proof.
  intros R. pose proof (len_nonneg l). destruct v as [[b|] size cap|]; [| |contradiction]; cbn; destruct R as (Hs & Hc & _ & HB).
  - exists (Some size). subst size. split; [reflexivity|]. split; [reflexivity|lia].
  - exists None. split; [reflexivity|]. split; [split; [lia|reflexivity]|lia].
Qed.
Lemma to_ok l z : 0 <= z <= len l -> to l z = Some z.
Proof. intros H. unfold to. destruct (Z.leb_spec 0 z), (Z.leb_spec z (len l)); try lia; reflexivity. Qed.

Lemma walk_ok v l last : vrep v l -> pts v (len l) last (Some (len l)) ->
  forall r fuel p z, pts v (len l) p (Some z) -> drop z l = r -> (length r < fuel)%nat -> walk fuel v p last = Ok r.
Proof.
  intros R LP. induction r as [|x r IH]; intros fuel p z P D FU; (destruct fuel as [|fuel]; [cbn in FU; lia|]); cbn [walk];
    rewrite (compare_at v l p last z (len l) R P LP); cbn [bind]; destruct P as [P1 P2];
    unfold drop in D; assert (LE : (length (skipn (Z.to_nat z) l) = length l - Z.to_nat z)%nat) by apply skipn_length;
    rewrite D in LE; cbn [length] in LE; unfold len in P2.
  - replace (z - len l) with 0 by (unfold len; lia). reflexivity.
  - unfold sign. assert (Q : (z - len l ?= 0) = Lt) by (apply Z.compare_lt_iff; unfold len; lia). rewrite Q. cbn [Z.eqb].
    assert (A : at_ l z = Some x).
    { unfold at_. destruct (Z.ltb_spec z 0); [lia|]. rewrite <- (firstn_skipn (Z.to_nat z) l), D.
      rewrite nth_error_app2; rewrite firstn_length; [|lia]. replace (Z.to_nat z - Nat.min (Z.to_nat z) (length l))%nat with O by lia. reflexivity. }
    rewrite (deref_ok v l p z x R (conj P1 P2) A). cbn [bind].
    destruct (advance_ok v l p z 1 (z + 1) R (conj P1 P2)) as (p1 & -> & P' & _); [apply to_ok; unfold len; lia|]. cbn [bind].
    rewrite (IH fuel p1 (z + 1) P').
    + reflexivity.
    + unfold drop. replace (Z.to_nat (z + 1)) with (1 + Z.to_nat z)%nat by lia. rewrite <- skipn_skipn', D. reflexivity.
    + cbn in FU. lia.
Qed.

Lemma rwalk_ok v l last : vrep v l -> pts v (len l) last (Some 0) ->
  forall n fuel p z, pts v (len l) p (Some z) -> Z.to_nat z = n -> (n < fuel)%nat -> rwalk fuel v p last = Ok (rev (take z l)).
Proof.
  intros R LP. induction n as [|n IH]; intros fuel p z P D FU; (destruct fuel as [|fuel]; [lia|]); cbn [rwalk];
    rewrite (compare_at v l p last z 0 R P LP); cbn [bind]; destruct P as [P1 P2]; rewrite Z.sub_0_r.
  - assert (z = 0) by lia. subst z. reflexivity.
  - unfold sign. assert (Q : (z ?= 0) = Gt) by (apply Z.compare_gt_iff; lia). rewrite Q. cbn [Z.eqb].
    destruct (advance_ok v l p z (-1) (z + -1) R (conj P1 P2)) as (p1 & -> & P' & _); [apply to_ok; lia|]. cbn [bind].
    assert (exists x, nth_error l n = Some x) as [x NX].
    { destruct (nth_error l n) eqn:N; [eauto|]. apply nth_error_None in N. unfold len in P2. lia. }
    assert (A : at_ l (z + -1) = Some x).
    { unfold at_. destruct (Z.ltb_spec (z + -1) 0); [lia|]. replace (Z.to_nat (z + -1)) with n by lia. exact NX. }
    rewrite (deref_ok v l p1 (z + -1) x R P' A). cbn [bind].
    rewrite (IH fuel p1 (z + -1) P') by lia. cbn [bind]. unfold take. replace (Z.to_nat (z + -1)) with n by lia.
    rewrite D, (firstn_S_snoc l n x NX), rev_app_distr. reflexivity.
Qed.
End K.
