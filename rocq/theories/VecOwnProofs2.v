(** erase(value) with a reference to an element of the vector. *)
Require Import ZArith List Bool Lia.
From Verif Require Import Base BaseProofs VecSpec VecModel VecStatements VecOwnStatements VecProofs VecProofs2 VecProofs3 VecProofs4 VecProofs5 VecOwnProofs.
Import ListNotations.
Open Scope Z_scope.

(** [d]: how many elements are kept before one lands on the slot compared with. *)
Fixpoint sweep (x d : Z) (l : list Z) : list Z :=
  match l with
  | [] => []
  | y :: l => if y =? x then sweep x d l else y :: sweep (if d =? 0 then y else x) (d - 1) l
  end.
Lemma sweep_without l : forall x d, d < 0 \/ len (without x l) <= d -> sweep x d l = without x l.
Proof.
  induction l as [|y l IH]; intros x d H; [reflexivity|]. cbn [sweep without filter] in *. fold (without x l) in *. destruct (Z.eqb_spec y x) as [E|E]; cbn [negb] in *; [apply IH, H|].
  rewrite len_cons in H. pose proof (len_nonneg (without x l)). destruct (Z.eqb_spec d 0); [lia|]. rewrite IH by lia. reflexivity.
Qed.
Lemma sweep_lands l1 y l2 : forall x d, y <> x -> len (without x l1) = d -> sweep x d (l1 ++ y :: l2) = without x l1 ++ y :: without y l2.
Proof.
  induction l1 as [|z l1 IH]; intros x d N H; cbn [sweep without filter app] in *.
  - rewrite len_nil in H. subst d. destruct (Z.eqb_spec y x); [congruence|]. cbn [Z.eqb]. rewrite sweep_without by lia. reflexivity.
  - fold (without x l1) in *. destruct (Z.eqb_spec z x) as [E|E]; cbn [negb] in *; [apply IH; assumption|]. rewrite len_cons in H. pose proof (len_nonneg (without x l1)).
    destruct (Z.eqb_spec d 0); [lia|]. cbn [app]. rewrite IH by (assumption || lia). reflexivity.
Qed.
Lemma len_sweep l : forall x d, len (sweep x d l) <= len l.
Proof. induction l as [|y l IH]; intros x d; [reflexivity|]. cbn [sweep]. destruct (y =? x); rewrite ?len_cons; [pose proof (IH x d)|pose proof (IH (if d =? 0 then y else x) (d - 1))]; lia. Qed.

Section K.
Variable k : kind.
Variable sz : Z.
Variable dbg : bool.
Hypothesis SZ : size_ok sz.
Notation vrep := (VecProofs2.vrep k sz).
Definition own (j : Z) : buf -> Z -> res bool := fun b v => do y <- read_ref (Some b) (Elem j); Ok (v =? y).

Lemma own_loop j : is_relocatable k = true -> forall l b a src dst er x,
  0 <= dst <= src -> src + len l <= b_len b -> 0 <= j < b_len b -> b_at b j = Live x ->
  (forall i, src <= i < src + len l -> b_at b i = Live (zn l (i - src))) ->
  (forall i, dst <= i < src -> exists v, b_at b i = Live v) ->
  exists b' a', erase_loop k (own j) b a src dst er (length l) = Ok (b', a', er + (len l - len (sweep x (j - dst) l))) /\ keeps k a a' /\ b_len b' = b_len b /\
    (forall i, dst <= i < dst + len (sweep x (j - dst) l) -> b_at b' i = Live (zn (sweep x (j - dst) l) (i - dst))) /\
    (forall i, i < dst \/ src + len l <= i -> b_at b' i = b_at b i).
Proof.
  intros RL. induction l as [|v l IH]; intros b a src dst er x H0 H1 HJ HX HL HS.
  - cbn. rewrite len_nil in *. exists b, a. rewrite !Z.add_0_r. split; [reflexivity|]. split; [apply keeps_refl|]. split; [reflexivity|]. split; [intros; lia|reflexivity].
  - rewrite len_cons in *. pose proof (len_nonneg l) as Hl0. cbn [erase_loop length].
    assert (Hv : b_at b src = Live v) by (rewrite HL, zn_cons0 by lia; reflexivity).
    rewrite (read_ok b src v) by (assumption || lia). cbn [bind]. unfold own at 1. cbn [read_ref]. rewrite (read_ok b j x) by assumption. cbn [bind].
    assert (HL' : forall i, src + 1 <= i < src + 1 + len l -> b_at b i = Live (zn l (i - (src + 1)))).
    { intros i Hi. rewrite HL by lia. rewrite zn_consS by lia. do 2 f_equal. lia. }
    cbn [sweep]. rewrite RL. destruct (Z.eqb_spec v x) as [E|E].
    + cbn [bind]. destruct (IH b a (src + 1) dst (er + 1) x) as (b' & a' & EQ & K1 & L & F & O); try lia; try assumption.
      { intros i Hi. destruct (Z.eq_dec i src) as [->|]; [eauto|]. apply HS; lia. }
      exists b', a'. split; [rewrite EQ; do 2 f_equal; lia|]. split; [exact K1|]. split; [exact L|]. split; [exact F|]. intros i Hi; apply O; lia.
    + assert (X : exists b1, (if dst =? src then Ok (b, a) else do b1 <- store k b dst v; Ok (b1, a)) = Ok (b1, a) /\ b_len b1 = b_len b /\ b_at b1 dst = Live v /\ (forall i, i <> dst -> b_at b1 i = b_at b i)).
      { destruct (Z.eqb_spec dst src) as [->|N]; [exists b; auto|]. destruct (HS dst ltac:(lia)) as (w & W).
        assert (ST : store k b dst v = Ok (set b dst (Live v))) by (unfold store; rewrite get_ok by lia; cbn [bind]; rewrite W; destruct k; reflexivity).
        rewrite ST. cbn [bind]. exists (set b dst (Live v)). split; [reflexivity|]. split; [reflexivity|]. split; [apply set_same|]. intros; apply set_other; assumption. }
      destruct X as (b1 & E1 & L1 & V1 & O1). rewrite E1. cbn [bind].
      assert (HX1 : b_at b1 j = Live (if j - dst =? 0 then v else x)).
      { destruct (Z.eqb_spec (j - dst) 0); [replace j with dst by lia; exact V1|]. rewrite O1 by lia. exact HX. }
      destruct (IH b1 a (src + 1) (dst + 1) er _ ltac:(lia) ltac:(lia) ltac:(lia) HX1) as (b' & a' & EQ & K1 & L & F & O).
      { intros i Hi. rewrite O1 by lia. apply HL'. lia. }
      { intros i Hi. destruct (Z.eq_dec i src) as [->|]; [|rewrite O1 by lia; apply HS; lia]. destruct (Z.eq_dec src dst) as [->|]; [eauto|]. rewrite O1 by lia. eauto. }
      replace (j - (dst + 1)) with (j - dst - 1) in * by lia. set (x1 := if j - dst =? 0 then v else x) in *.
      exists b', a'. rewrite len_cons. split; [rewrite EQ; do 2 f_equal; lia|]. split; [exact K1|]. split; [congruence|]. split.
      * intros i Hi. destruct (Z.eq_dec i dst) as [->|].
        -- rewrite O by lia. rewrite V1, zn_cons0 by lia. reflexivity.
        -- rewrite F by lia. rewrite zn_consS by lia. do 2 f_equal. lia.
      * intros i Hi. rewrite O by lia. apply O1. lia.
Qed.
Lemma shift_back b a src dst v : is_relocatable k = false -> 0 <= dst <= src -> src < b_len b -> b_at b src = Live v -> (forall i, dst <= i < src -> spare k (b_at b i)) ->
  exists b1 a1, (if dst =? src then Ok (b, a) else if is_relocatable k then do b1 <- store k b dst v; Ok (b1, a) else shift_one k b a src dst) = Ok (b1, a1) /\
    b_len b1 = b_len b /\ (forall i, i <> src -> i <> dst -> b_at b1 i = b_at b i) /\ (forall i, dst + 1 <= i < src + 1 -> spare k (b_at b1 i)).
Proof.
  intros RL H0 H1 Hv HS. destruct (Z.eqb_spec dst src) as [->|N]; [exists b, a; repeat split; auto; intros; lia|]. rewrite RL.
  destruct (shift_one_ok k b a src dst v RL) as (b1 & a1 & E1 & K1 & L1 & V1 & S1 & O1); try lia; auto. { apply HS; lia. }
  exists b1, a1. split; [exact E1|]. split; [exact L1|]. split; [exact O1|]. intros i Hi. destruct (Z.eq_dec i src) as [->|]; [exact S1|]. rewrite O1 by lia. apply HS; lia.
Qed.
Lemma own_last j x : is_relocatable k = false -> forall l b a src dst er,
  0 <= dst <= src -> src + len l = j + 1 -> j < b_len b -> b_at b j = Live x ->
  (forall i, src <= i < src + len l -> b_at b i = Live (zn l (i - src))) ->
  (forall i, dst <= i < src -> spare k (b_at b i)) -> l <> [] ->
  erase_loop k (own j) b a src dst er (length l) = erase_loop k (fun _ v => Ok (v =? x)) b a src dst er (length l).
Proof.
  intros RL. induction l as [|v l IH]; intros b a src dst er H0 H1 HJ HX HL HS NE; [congruence|].
  rewrite len_cons in *. pose proof (len_nonneg l) as Hl0. cbn [erase_loop length].
  assert (Hv : b_at b src = Live v) by (rewrite HL, zn_cons0 by lia; reflexivity).
  rewrite (read_ok b src v) by (assumption || lia). cbn [bind]. unfold own at 1. cbn [read_ref]. rewrite (read_ok b j x) by (assumption || lia). cbn [bind].
  assert (HL' : forall i, src + 1 <= i < src + 1 + len l -> b_at b i = Live (zn l (i - (src + 1)))).
  { intros i Hi. rewrite HL by lia. rewrite zn_consS by lia. do 2 f_equal. lia. }
  assert (D : l = [] \/ l <> []) by (destruct l; [left|right]; congruence).
  rewrite RL. destruct (v =? x).
  - destruct (kill_ok k b a src v) as (b1 & a1 & E1 & K1 & S1 & L1 & O1); [lia|exact Hv|]. rewrite E1. cbn [bind]. destruct D as [->|D]; [reflexivity|].
    assert (len l <> 0) by (intros Z0; apply len0 in Z0; congruence).
    apply IH; try lia; try assumption.
    + rewrite O1 by lia. exact HX.
    + intros i Hi. rewrite O1 by lia. apply HL'. lia.
    + intros i Hi. destruct (Z.eq_dec i src) as [->|]; [exact S1|]. rewrite O1 by lia. apply HS; lia.
  - destruct (shift_back b a src dst v RL) as (b1 & a1 & E1 & L1 & O1 & S1); try lia; try assumption. rewrite RL in E1. rewrite E1. cbn [bind]. destruct D as [->|D]; [reflexivity|].
    assert (len l <> 0) by (intros Z0; apply len0 in Z0; congruence).
    apply IH; try lia; try assumption.
    + rewrite O1 by lia. exact HX.
    + intros i Hi. rewrite O1 by lia. apply HL'. lia.
Qed.
Lemma own_early j x : is_relocatable k = false -> forall l b a src dst er,
  0 <= dst <= src -> src <= j -> j + 1 < src + len l -> src + len l <= b_len b -> b_at b j = Live x ->
  (forall i, src <= i < src + len l -> b_at b i = Live (zn l (i - src))) ->
  (forall i, dst <= i < src -> spare k (b_at b i)) ->
  erase_loop k (own j) b a src dst er (length l) = Undef.
Proof.
  intros RL. induction l as [|v l IH]; intros b a src dst er H0 H1 HJ HB HX HL HS; [rewrite len_nil in *; lia|].
  rewrite len_cons in *. pose proof (len_nonneg l) as Hl0. cbn [erase_loop length].
  assert (Hv : b_at b src = Live v) by (rewrite HL, zn_cons0 by lia; reflexivity).
  rewrite (read_ok b src v) by (assumption || lia). cbn [bind]. unfold own at 1. cbn [read_ref]. rewrite (read_ok b j x) by (assumption || lia). cbn [bind].
  assert (HL' : forall i, src + 1 <= i < src + 1 + len l -> b_at b i = Live (zn l (i - (src + 1)))).
  { intros i Hi. rewrite HL by lia. rewrite zn_consS by lia. do 2 f_equal. lia. }
  rewrite RL. destruct (Z.eqb_spec v x) as [E|E].
  - destruct (kill_ok k b a src v) as (b1 & a1 & E1 & K1 & S1 & L1 & O1); [lia|exact Hv|].
    assert (W : b1 = set b src Raw).
    { unfold kill in E1. destruct k; try discriminate RL; (rewrite get_ok in E1 by lia; cbn [bind] in E1; rewrite Hv in E1; congruence). }
    rewrite E1. cbn [bind]. destruct (Z.eq_dec src j) as [->|N].
    + destruct l as [|w l]; [rewrite len_nil in *; lia|]. cbn [erase_loop length]. rewrite len_cons in *. rewrite (read_ok b1 (j + 1) w).
      * cbn [bind]. unfold own at 1. cbn [read_ref]. unfold read. rewrite get_ok by lia. subst b1. rewrite set_same. reflexivity.
      * lia.
      * rewrite O1 by lia. rewrite HL' by lia. rewrite Z.sub_diag, zn_cons0 by lia. reflexivity.
    + apply IH; try lia.
      * rewrite O1 by lia. exact HX.
      * intros i Hi. rewrite O1 by lia. apply HL'. lia.
      * intros i Hi. destruct (Z.eq_dec i src) as [->|]; [exact S1|]. rewrite O1 by lia. apply HS; lia.
  - assert (src <> j) by congruence.
    destruct (shift_back b a src dst v RL) as (b1 & a1 & E1 & L1 & O1 & S1); try lia; try assumption. rewrite RL in E1. rewrite E1. cbn [bind].
    apply IH; try lia; try assumption.
    + rewrite O1 by lia. exact HX.
    + intros i Hi. rewrite O1 by lia. apply HL'. lia.
Qed.
Section M.
Variable mal : Z -> bool.
Notation run := (run_uop k sz dbg mal).
Lemma erase_reloc b size cap l a j : is_relocatable k = true -> vrep (Vec (Some b) size cap) l -> 0 <= j < size ->
  let l' := sweep (zn l j) j l in
  exists v a', run (Vec (Some b) size cap) a (UEraseVal (Elem j)) = Ok (v, a', Done (len l - len l')) /\ vrep v l'.
Proof.
  intros RL R J l'. pose proof R as (Hs & Hc & Hb & C0 & BL & BV & BS). pose proof (len_nonneg l) as LN. cbn [run_uop]. fold (own j).
  destruct (own_loop j RL l b a 0 0 0 (zn l j)) as (b' & a' & E & K1 & L & F & O); try lia.
  { apply BV. lia. } { intros i Hi. rewrite Z.sub_0_r. apply BV. lia. }
  replace (Z.to_nat size) with (length l) by (unfold len in Hs; lia). rewrite Z.sub_0_r in *. fold l' in E, F. rewrite E. cbn [bind].
  pose proof (len_sweep l (zn l j) j) as LS. fold l' in LS. pose proof (len_nonneg l').
  eexists _, a'. split; [reflexivity|]. split; [lia|]. split; [lia|]. split; [lia|]. split; [lia|]. split; [lia|]. split.
  - intros i Hi. rewrite F by lia. rewrite Z.sub_0_r. reflexivity.
  - intros i Hi. apply spare_reloc. exact RL.
Qed.
Lemma erase_last b size cap l a j : is_relocatable k = false -> vrep (Vec (Some b) size cap) l -> 0 <= j -> j + 1 = size ->
  run (Vec (Some b) size cap) a (UEraseVal (Elem j)) = run (Vec (Some b) size cap) a (UEraseVal (Val (zn l j))).
Proof.
  intros RL R J0 J. pose proof R as (Hs & Hc & Hb & C0 & BL & BV & BS). cbn [run_uop]. fold (own j). replace (Z.to_nat size) with (length l) by (unfold len in Hs; lia).
  rewrite (own_last j (zn l j) RL l b a 0 0 0); try lia; [reflexivity|apply BV; lia|intros i Hi; rewrite Z.sub_0_r; apply BV; lia|]. intros ->. rewrite len_nil in *. lia.
Qed.
Lemma erase_early b size cap l a j : is_relocatable k = false -> vrep (Vec (Some b) size cap) l -> 0 <= j -> j + 1 < size ->
  run (Vec (Some b) size cap) a (UEraseVal (Elem j)) = Undef.
Proof.
  intros RL R J0 J. pose proof R as (Hs & Hc & Hb & C0 & BL & BV & BS). cbn [run_uop]. fold (own j). replace (Z.to_nat size) with (length l) by (unfold len in Hs; lia).
  rewrite (own_early j (zn l j) RL l b a 0 0 0); try lia; [reflexivity|apply BV; lia|intros i Hi; rewrite Z.sub_0_r; apply BV; lia].
Qed.
End M.
End K.
