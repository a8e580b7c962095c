(** stdb_vector: several vectors; executions. *)
Require Import ZArith List Bool Lia.
From Verif Require Import Base BaseProofs VecSpec VecModel VecStatements VecProofs VecProofs2 VecProofs3.
Import ListNotations.
Open Scope Z_scope.

Definition vret_ok (o : vop) (r r' : Z) : Prop := match o with VOn _ u => ret_ok u r r' | _ => r = r' end.

Lemma vupd_lset i x : forall l, vupd i x l = lset i x l.
Proof. induction i as [|i IH]; intros [|y l]; cbn; try reflexivity. rewrite IH; reflexivity. Qed.

Section K.
Variable k : kind.
Variable sz : Z.
Variable dbg : bool.
Hypothesis SZ : size_ok sz.
Notation vrep := (vrep k sz).

Definition orep (ov : option vec) (ol : option (list Z)) : Prop :=
  match ov, ol with None, None => True | Some v, Some l => vrep v l | _, _ => False end.
Definition srep (s : vsys) (ss : list (option (list Z))) : Prop := Forall2 orep (vs s) ss.

Lemma F2_lset i x y : forall l l', Forall2 orep l l' -> orep x y -> Forall2 orep (lset i x l) (lset i y l').
Proof.
  induction i as [|i IH]; intros l l' H XY; destruct H; cbn; constructor; auto.
Qed.
Lemma F2_snoc l l' x y : Forall2 orep l l' -> orep x y -> Forall2 orep (l ++ [x]) (l' ++ [y]).
Proof. intros; apply Forall2_app; auto. Qed.

Lemma srep_get s ss i l : srep s ss -> lget ss i = Some l -> exists v, nth_error (vs s) i = Some (Some v) /\ vget s i = Ok v /\ vrep v l.
Proof.
  unfold srep, vget, lget. generalize (vs s). intros L H. revert ss H. revert L.
  induction i as [|i IH]; intros L ss H E; destruct H as [|x y ? ? OR H]; cbn in *; try discriminate.
  - subst y. destruct x as [v|]; [|contradiction]. eauto.
  - eauto.
Qed.
Lemma srep_get' s ss i v : srep s ss -> nth_error (vs s) i = Some (Some v) -> exists l, lget ss i = Some l /\ vrep v l.
Proof.
  unfold srep, lget. generalize (vs s). intros L H. revert ss H. revert L.
  induction i as [|i IH]; intros L ss H E; destruct H as [|x y ? ? OR H]; cbn in *; try discriminate.
  - injection E as ->. destruct y as [ly|]; [|contradiction]. eauto.
  - eauto.
Qed.
Lemma lset_same {A} i (x : A) : forall l, nth_error l i = Some x -> lset i x l = l.
Proof. induction i as [|i IH]; intros [|y l] E; cbn in *; try discriminate; [congruence|]. rewrite IH; auto. Qed.
Lemma lset_get {A} i (x y : A) : forall l, nth_error l i = Some y -> nth_error (lset i x l) i = Some x.
Proof. induction i as [|i IH]; intros [|z l] E; cbn in *; try discriminate; [reflexivity|]. auto. Qed.

Lemma vrep_nil : vrep (Vec None 0 0) [].
Proof. split; [reflexivity|]. split; [lia|]. split; [unfold HALF; lia|reflexivity]. Qed.

Section M.
Variable mal : Z -> bool.
Hypothesis MS : malloc_sane mal.

Definition sgood (s : vsys) (o : vop) (ss ss' : list (option (list Z))) (r' : Z) (m : res (vsys * outc)) : Prop :=
  exists s' out, m = Ok (s', out) /\
    match out with
    | Done r => srep s' ss' /\ keeps k (vacct s) (vacct s') /\ vret_ok o r r'
    | Threw => (exists n, mal n = false) /\
               (unbroken s' -> srep s' (vthrow o ss) /\ keeps k (vacct s) (vacct s'))
    end.

Ltac done_ := eexists; eexists; split; [reflexivity|]; cbn beta iota.

(** A new vector whose elements are written by [f]. *)
Lemma new_ok s ss l n (f : option buf -> acct -> res (option buf * acct)) o :
  srep s ss -> fits sz n -> n = len l ->
  (0 < n -> forall b a, vrep (Vec b 0 n) [] -> exists b' a', f b a = Ok (b', a') /\ keeps k a a' /\ vrep (Vec b' n n) l) ->
  vthrow o ss = ss ++ [None] -> (forall r r', vret_ok o r r' <-> r = r') ->
  sgood s o ss (ss ++ [Some l]) 0
   (if 0 <? n then
        do m <- allocate sz dbg mal n;
        match m with
        | None => vpush s None (vacct s) Threw
        | Some b => do (b1, a1) <- f (Some b) (vacct s); vpush s (Some (Vec b1 n n)) a1 (Done 0)
        end
      else vpush s (Some (Vec None 0 0)) (vacct s) (Done 0)).
Proof.
  intros R [F0 F1] N HF VT RO. unfold allocate, vpush. destruct (Z.ltb_spec 0 n) as [P|P].
  - rewrite assert_ok by (first [reflexivity | apply Z.ltb_lt; lia]). cbn [bind].
    destruct (malloc_ok sz SZ mal MS n F0 F1) as [[E1 E2]|[E1 [E2 E3]]]; rewrite E1.
    + done_. split; [eauto|]. intros _. rewrite VT. split; [apply F2_snoc; [exact R|exact I]|apply keeps_refl].
    + destruct (HF P _ (vacct s) (vrep_new k sz n P E3)) as (b1 & a1 & EF & KF & RF). rewrite EF; cbn [bind]. done_.
      split; [apply F2_snoc; [exact R|exact RF]|]. split; [exact KF|apply RO; reflexivity].
  - assert (l = []) by (apply len0; lia). subst l. done_.
    split; [apply F2_snoc; [exact R|exact vrep_nil]|]. split; [apply keeps_refl|apply RO; reflexivity].
Qed.

Lemma copy_into b size' b2 cap l a w :
  k <> KReloc -> vrep (Vec (Some b) size' cap) w -> 0 < size' -> vrep (Vec b2 0 l) [] -> size' <= l ->
  exists bb b' a', b2 = Some bb /\ copy_range k dbg b bb a size' = Ok (b', a') /\ keeps k a a' /\ vrep (Vec (Some b') size' l) w.
Proof.
  intros KR (Hs & Hc & Hb & C0 & BL & BV & BS) P R2 LE.
  destruct R2 as (_ & Hc2 & Hb2 & HB2). destruct b2 as [bb|]; [|lia]. destruct HB2 as (C02 & BL2 & _ & BS2).
  destruct (copy_range_ok k dbg b bb a size' KR) as (b' & a' & E & KK & [O1 O2] & F); try lia.
  { intros j Hj; eexists; apply BV; lia. } { intros; apply BS2; lia. }
  exists bb, b', a'. split; [reflexivity|]. split; [exact E|]. split; [exact KK|].
  split; [exact Hs|]. split; [lia|]. split; [lia|]. split; [lia|]. split; [congruence|]. split.
  - intros j Hj. rewrite F by lia. apply BV; lia.
  - intros j Hj. rewrite O2 by lia. apply BS2; lia.
Qed.

Theorem vstep_ok s ss o ss' r' :
  srep s ss -> allowed_v k sz dbg mal s o -> vapply o ss = Some (ss', r') ->
  sgood s o ss ss' r' (vstep k sz dbg mal s o).
Proof.
  intros R AL HA.
  destruct o as [|n|n x|l|j|j|i j|i j|i j|i|i u]; cbn [vapply] in HA.
  - injection HA as <- <-. cbn. unfold vpush. done_. split; [apply F2_snoc; [exact R|exact vrep_nil]|].
    split; [apply keeps_refl|reflexivity].
  - destruct (Z.ltb_spec n 0); [discriminate|]. injection HA as <- <-. cbn [vstep].
    apply (new_ok s ss _ n (fun b a => construct_range_with_cref k dbg b a 0 n (Val dflt) false)); auto; try reflexivity.
    + rewrite len_fill; lia.
    + intros P b a RB. destruct (cref_ok k sz dbg b 0 n [] a n dflt false RB) as (b' & a' & E & KK & RR); [lia|].
      rewrite Z.sub_0_r in RR. eauto.
  - destruct (Z.ltb_spec n 0); [discriminate|]. injection HA as <- <-. cbn [vstep].
    apply (new_ok s ss _ n (fun b a => construct_range_with_cref k dbg b a 0 n (Val x) false)); auto; try reflexivity.
    + rewrite len_fill; lia.
    + intros P b a RB. destruct (cref_ok k sz dbg b 0 n [] a n x false RB) as (b' & a' & E & KK & RR); [lia|].
      rewrite Z.sub_0_r in RR. eauto.
  - injection HA as <- <-. destruct AL as [KR F]. cbn [vstep].
    apply (new_ok s ss _ (len l) (fun b a => copy_from_iterator k dbg b a 0 l)); auto; try reflexivity.
    intros P b a RB. assert (l <> []) by (intros ->; rewrite len_nil in P; lia).
    destruct (from_iter_ok k sz dbg b 0 (len l) [] a l KR H RB) as (b' & a' & E & KK & RR); [lia|]. eauto.
  - destruct (lget ss j) as [l|] eqn:G; [|discriminate]. injection HA as <- <-. cbn [vstep allowed_v] in *.
    destruct (srep_get s ss j l R G) as (v & NV & EV & RV). rewrite EV; cbn [bind].
    destruct v as [b size cap|]; [|contradiction]. pose proof RV as (Hs & Hc & Hb & HB). pose proof (len_nonneg l).
    assert (SM : size * sz < M64) by (pose proof (mul_pos_lt sz SZ size cap Hc); unfold HALF, M64 in *; lia).
    unfold allocate, vpush. destruct (Z.ltb_spec 0 size) as [P|P].
    + rewrite assert_ok by (first [reflexivity | apply Z.ltb_lt; lia]). cbn [bind].
      destruct (malloc_ok sz SZ mal MS size) as [[E1 E2]|[E1 [E2 E3]]]; [lia|lia| |]; rewrite E1.
      * done_. split; [eauto|]. intros _. cbn [vthrow]. split; [apply F2_snoc; [exact R|exact I]|apply keeps_refl].
      * destruct b as [b|]; [|lia]. cbn [need bind].
        destruct (copy_into b size _ cap size (vacct s) l AL RV P (vrep_new k sz size P E3)) as (bb & b' & a' & EB & E & KK & RR); [lia|].
        injection EB as <-. rewrite E; cbn [bind]. done_. split; [apply F2_snoc; [exact R|exact RR]|]. split; [exact KK|reflexivity].
    + assert (l = []) by (apply len0; lia). subst l. done_.
      split; [apply F2_snoc; [exact R|exact vrep_nil]|]. split; [apply keeps_refl|reflexivity].
  - destruct (lget ss j) as [l|] eqn:G; [|discriminate]. injection HA as <- <-. cbn [vstep].
    destruct (srep_get s ss j l R G) as (v & NV & EV & RV). rewrite EV; cbn [bind]. done_.
    split; [|split; [apply keeps_refl|reflexivity]]. unfold srep; cbn [vs]. rewrite vupd_lset.
    apply F2_snoc; [|exact RV]. apply F2_lset; [exact R|exact vrep_nil].
  - destruct (lget ss i) as [li|] eqn:Gi; [|discriminate]. destruct (lget ss j) as [l|] eqn:G; [|discriminate].
    injection HA as <- <-. cbn [vstep allowed_v] in *.
    destruct (srep_get s ss i li R Gi) as (v & NV & EV & RV). rewrite EV; cbn [bind].
    destruct (srep_get s ss j l R G) as (w & NW & EW & RW). rewrite EW; cbn [bind].
    destruct (Nat.eqb_spec i j) as [->|N].
    { done_. split; [|split; [apply keeps_refl|reflexivity]].
      rewrite lset_same; [exact R|]. unfold lget in G. destruct (nth_error ss j); congruence. }
    destruct v as [b size cap|]; [|contradiction]. destruct w as [wb wsize wcap|]; [|contradiction].
    pose proof RV as (Hs & Hc & Hb & HB). pose proof RW as (Hs2 & Hc2 & Hb2 & HB2).
    pose proof (len_nonneg l). pose proof (len_nonneg li).
    assert (SM : wsize * sz < M64) by (pose proof (mul_pos_lt sz SZ wsize wcap Hc2); unfold HALF, M64 in *; lia).
    destruct (Z.ltb_spec cap wsize) as [L|L].
    + destruct (core_destroy_ok k sz b size cap li (vacct s) RV) as (a1 & E1 & K1 & N1). rewrite E1; cbn [bind].
      unfold allocate. rewrite assert_ok by (first [reflexivity | apply Z.ltb_lt; lia]). cbn [bind].
      destruct (malloc_ok sz SZ mal MS wsize) as [[M1 M2]|[M1 [M2 M3]]]; [lia|lia| |]; rewrite M1.
      * done_. split; [eauto|]. intros UB. destruct b as [b|].
        -- exfalso. apply (UB i). cbn [vs]. rewrite vupd_lset. eapply lset_get; exact NV.
        -- cbn [vthrow after_failed_allocate vacct]. rewrite N1 by reflexivity. split; [|apply keeps_refl].
           unfold srep; cbn [vs]. rewrite vupd_lset. replace (Vec None 0 0) with (Vec None size cap) by (f_equal; lia).
           rewrite lset_same; [exact R|exact NV].
      * destruct wb as [wb|]; [|lia]. cbn [need bind].
        destruct (copy_into wb wsize _ wcap wsize a1 l AL RW ltac:(lia) (vrep_new k sz wsize ltac:(lia) M3)) as (bb & b' & a' & EB & E & KK & RR); [lia|].
        injection EB as <-. rewrite E; cbn [bind]. done_.
        split; [|split; [eapply keeps_trans; eassumption|reflexivity]].
        unfold srep; cbn [vs]. rewrite vupd_lset. apply F2_lset; [exact R|exact RR].
    + destruct (core_clear_ok k sz dbg b size cap li (vacct s) RV) as (b1 & a1 & E1 & K1 & R1 & N1). rewrite E1; cbn [bind].
      destruct (Z.ltb_spec 0 wsize) as [P|P].
      * destruct wb as [wb|]; [|lia]. cbn [need bind].
        destruct (copy_into wb wsize b1 wcap cap a1 l AL RW P R1 L) as (bb & b' & a' & EB & E & KK & RR).
        subst b1. cbn [need bind]. rewrite E; cbn [bind]. done_.
        split; [|split; [eapply keeps_trans; eassumption|reflexivity]].
        unfold srep; cbn [vs]. rewrite vupd_lset. apply F2_lset; [exact R|exact RR].
      * assert (l = []) by (apply len0; lia). subst l. done_. split; [|split; [exact K1|reflexivity]].
        unfold srep; cbn [vs]. rewrite vupd_lset. apply F2_lset; [exact R|exact R1].
  - destruct (lget ss i) as [li|] eqn:Gi; [|discriminate]. destruct (lget ss j) as [l|] eqn:G; [|discriminate].
    injection HA as <- <-. cbn [vstep].
    destruct (srep_get s ss i li R Gi) as (v & NV & EV & RV). rewrite EV; cbn [bind].
    destruct (srep_get s ss j l R G) as (w & NW & EW & RW). rewrite EW; cbn [bind].
    destruct (Nat.eqb_spec i j) as [->|N].
    { done_. split; [exact R|]. split; [apply keeps_refl|reflexivity]. }
    destruct v as [b size cap|]; [|contradiction].
    destruct (core_destroy_ok k sz b size cap li (vacct s) RV) as (a1 & E1 & K1 & N1). rewrite E1; cbn [bind]. done_.
    split; [|split; [exact K1|reflexivity]]. unfold srep; cbn [vs]. rewrite !vupd_lset.
    apply F2_lset; [|exact vrep_nil]. apply F2_lset; [exact R|exact RW].
  - destruct (lget ss i) as [li|] eqn:Gi; [|discriminate]. destruct (lget ss j) as [l|] eqn:G; [|discriminate].
    injection HA as <- <-. cbn [vstep].
    destruct (srep_get s ss i li R Gi) as (v & NV & EV & RV). rewrite EV; cbn [bind].
    destruct (srep_get s ss j l R G) as (w & NW & EW & RW). rewrite EW; cbn [bind]. done_.
    split; [|split; [apply keeps_refl|reflexivity]]. unfold srep; cbn [vs]. rewrite !vupd_lset.
    apply F2_lset; [|exact RV]. apply F2_lset; [exact R|exact RW].
  - destruct (lget ss i) as [li|] eqn:Gi; [|discriminate]. injection HA as <- <-. cbn [vstep].
    destruct (srep_get s ss i li R Gi) as (v & NV & EV & RV). rewrite EV; cbn [bind].
    destruct v as [b size cap|]; [|contradiction].
    destruct (core_destroy_ok k sz b size cap li (vacct s) RV) as (a1 & E1 & K1 & N1). rewrite E1; cbn [bind]. done_.
    split; [|split; [exact K1|reflexivity]]. unfold srep; cbn [vs]. rewrite !vupd_lset. apply F2_lset; [exact R|exact I].
  - destruct (lget ss i) as [li|] eqn:Gi; [|discriminate].
    destruct (apply u li) as [[l' r]|] eqn:AP; [|discriminate]. injection HA as <- <-. cbn [vstep allowed_v] in *.
    destruct (srep_get s ss i li R Gi) as (v & NV & EV & RV). rewrite EV; cbn [bind]. rewrite NV in AL.
    destruct (run_uop_ok k sz dbg SZ mal MS v li (vacct s) u l' r RV AL AP) as (v' & a' & out & E & H).
    rewrite E; cbn [bind]. destruct out as [q|]; done_.
    + destruct H as (H1 & H2 & H3). split; [|split; [exact H2|exact H3]].
      unfold srep; cbn [vs]. rewrite vupd_lset. apply F2_lset; [exact R|exact H1].
    + destruct H as (H1 & H2). split; [exact H1|]. intros UB. destruct H2 as [[-> ->] | ->].
      * cbn [vthrow]. split; [|apply keeps_refl]. unfold srep; cbn [vs]. rewrite vupd_lset, lset_same; [exact R|exact NV].
      * exfalso. apply (UB i). cbn [vs]. rewrite vupd_lset. eapply lset_get; exact NV.
Qed.
End M.

Lemma vreach_inv s ss : vreach k sz dbg s ss -> srep s ss /\ keeps k no_acct (vacct s).
Proof.
  induction 1 as [|s ss mal o s' r ss' r' H [IR IK] MS AL VA ST|s ss mal o s' x H [IR IK] MS AL VA ST UB].
  - split; [constructor|apply keeps_refl].
  - destruct (vstep_ok mal MS s ss o ss' r' IR AL VA) as (s1 & out & E & G). rewrite ST in E. injection E as <- <-.
    destruct G as (G1 & G2 & _). split; [exact G1|eapply keeps_trans; eassumption].
  - destruct x as [ss' r']. destruct (vstep_ok mal MS s ss o ss' r' IR AL VA) as (s1 & out & E & G). rewrite ST in E. injection E as <- <-.
    destruct G as [_ G]. destruct (G UB) as [G1 G2]. split; [exact G1|eapply keeps_trans; eassumption].
Qed.

(** What the client sees. *)
Lemma read_all_ok b : forall l i, 0 <= i -> i + len l <= b_len b ->
  (forall j, i <= j < i + len l -> b_at b j = Live (zn l (j - i))) -> read_all b i (length l) = Ok l.
Proof.
  induction l as [|v l IH]; intros i H0 H1 H; [reflexivity|]. rewrite len_cons in *. pose proof (len_nonneg l).
  cbn [read_all length]. rewrite (read_ok b i v); [|lia|rewrite H by lia; rewrite zn_cons0 by lia; reflexivity].
  cbn [bind]. rewrite IH; [reflexivity|lia|lia|]. intros j Hj. rewrite H by lia. rewrite zn_consS by lia. do 2 f_equal. lia.
Qed.

Lemma vrep_shows v l : vrep v l -> shows dbg v l.
Proof.
  intros R. destruct v as [b size cap|]; [|contradiction]. destruct R as (Hs & Hc & Hb & HB). pose proof (len_nonneg l) as LN.
  assert (AT : forall i x, at_ l i = Some x -> vat dbg (Vec b size cap) i = Ok x).
  { intros i x E. apply at_inv in E. destruct E as [E ->]. cbn [vat]. destruct b as [b|]; [|lia].
    destruct HB as (C0 & BL & BV & BS).
    rewrite assert_ok by (destruct (Z.leb_spec 0 i), (Z.ltb_spec i size); cbn; reflexivity || lia). cbn [bind need].
    apply read_ok; [lia|]. apply BV; lia. }
  split; [|split; [|split; [|split; [|split; [|split]]]]].
  - cbn [viterate]. destruct b as [b|].
    + destruct HB as (C0 & BL & BV & BS). replace (Z.to_nat size) with (length l) by (unfold len in Hs; lia).
      apply read_all_ok; [lia|lia|]. intros j Hj. rewrite Z.sub_0_r. apply BV; lia.
    + destruct (Z.eqb_spec size 0); [|lia]. rewrite (len0 l) by lia. reflexivity.
  - cbn. f_equal; exact Hs.
  - cbn. f_equal. destruct l as [|x l]; [rewrite len_nil in Hs; subst size; reflexivity|].
    rewrite len_cons in Hs. pose proof (len_nonneg l). apply Z.eqb_neq; lia.
  - exists cap. split; [reflexivity|lia].
  - exact AT.
  - intros x r ->. rewrite len_cons in *. pose proof (len_nonneg r). cbn [vfront].
    rewrite assert_ok by (first [reflexivity | apply Z.ltb_lt; lia]). cbn [bind].
    destruct b as [b|]; [|lia]. destruct HB as (C0 & BL & BV & BS). cbn [need bind].
    apply read_ok; [lia|]. rewrite BV by lia. reflexivity.
  - intros x r ->. rewrite len_app in *. change (len [x]) with 1 in *. pose proof (len_nonneg r). cbn [vback].
    rewrite assert_ok by (first [reflexivity | apply Z.ltb_lt; lia]). cbn [bind].
    destruct b as [b|]; [|lia]. destruct HB as (C0 & BL & BV & BS). cbn [need bind].
    apply read_ok; [lia|]. rewrite BV by lia. rewrite zn_app2 by lia. rewrite zn_cons0 by lia. reflexivity.
Qed.

(** Comparisons. *)
Lemma eq_loop_ok v w : forall n l m i, shows dbg v l -> shows dbg w m -> 0 <= i -> i + Z.of_nat n <= len l -> i + Z.of_nat n <= len m ->
  eq_loop dbg v w i n = Ok (if list_eq_dec Z.eq_dec (take (Z.of_nat n) (drop i l)) (take (Z.of_nat n) (drop i m)) then true else false).
Proof.
  induction n as [|n IH]; intros l m i V W H0 H1 H2; [reflexivity|]. cbn [eq_loop].
  pose proof V as (_ & _ & _ & _ & AV & _). pose proof W as (_ & _ & _ & _ & AW & _).
  rewrite (AV i (zn l i)) by (apply at_zn; lia). rewrite (AW i (zn m i)) by (apply at_zn; lia). cbn [bind].
  assert (D : forall l, i + Z.of_nat (S n) <= len l -> drop i l = zn l i :: drop (i + 1) l).
  { intros l0 HL. unfold drop, zn, len in *. replace (Z.to_nat (i + 1)) with (S (Z.to_nat i)) by lia.
    assert (Hl : (Z.to_nat i < length l0)%nat) by lia. revert Hl. generalize (Z.to_nat i). clear.
    intros q; revert l0. induction q as [|q IHq]; intros [|x l0] Hl; cbn in *; try lia; [reflexivity|]. apply IHq; lia. }
  rewrite (D l H1), (D m H2).
  replace (take (Z.of_nat (S n)) (zn l i :: drop (i + 1) l)) with (zn l i :: take (Z.of_nat n) (drop (i + 1) l))
    by (unfold take; rewrite !Nat2Z.id; reflexivity).
  replace (take (Z.of_nat (S n)) (zn m i :: drop (i + 1) m)) with (zn m i :: take (Z.of_nat n) (drop (i + 1) m))
    by (unfold take; rewrite !Nat2Z.id; reflexivity).
  destruct (Z.eqb_spec (zn l i) (zn m i)) as [E|E]; cbn [negb].
  - rewrite (IH l m (i + 1)) by (assumption || lia). rewrite E.
    destruct (list_eq_dec Z.eq_dec (take (Z.of_nat n) (drop (i + 1) l)) (take (Z.of_nat n) (drop (i + 1) m))) as [e|e];
    destruct (list_eq_dec Z.eq_dec (zn m i :: take (Z.of_nat n) (drop (i + 1) l)) (zn m i :: take (Z.of_nat n) (drop (i + 1) m))) as [e'|e'];
      congruence.
  - destruct (list_eq_dec Z.eq_dec (zn l i :: take (Z.of_nat n) (drop (i + 1) l)) (zn m i :: take (Z.of_nat n) (drop (i + 1) m))) as [e|e];
      congruence.
Qed.

Lemma vec_eq_ok v w l m : vrep v l -> vrep w m -> exists b, vec_eq dbg v w = Ok b /\ (b = true <-> l = m).
Proof.
  intros V W. apply vrep_shows in V, W. unfold vec_eq.
  pose proof V as (V1 & V2 & _). pose proof W as (W1 & W2 & _). rewrite V2, W2. cbn [bind].
  destruct (Z.eqb_spec (len l) (len m)) as [E|E]; cbn [negb].
  - pose proof (len_nonneg l).
    rewrite (eq_loop_ok v w (Z.to_nat (len l)) l m 0) by (assumption || lia).
    rewrite Z2Nat.id by lia. rewrite !drop_0. rewrite !take_all by lia.
    eexists; split; [reflexivity|]. destruct (list_eq_dec Z.eq_dec l m); split; congruence.
  - eexists; split; [reflexivity|]. split; [discriminate|]. intros ->. congruence.
Qed.

Lemma drop_step l i : 0 <= i < len l -> drop i l = zn l i :: drop (i + 1) l.
Proof.
  intros HL. unfold drop, zn, len in *. replace (Z.to_nat (i + 1)) with (S (Z.to_nat i)) by lia.
  assert (Hl : (Z.to_nat i < length l)%nat) by lia. revert Hl. generalize (Z.to_nat i). clear.
  intros q; revert l. induction q as [|q IHq]; intros [|x l] Hl; cbn in *; try lia; [reflexivity|]. apply IHq; lia.
Qed.

Definition agree (c : comparison) (l m : list Z) : Prop :=
  match c with Lt => lex_lt l m | Gt => lex_lt m l | Eq => l = m end.

Lemma cmp_loop_ok v w : forall n l m i, shows dbg v l -> shows dbg w m -> 0 <= i -> i + Z.of_nat n = Z.min (len l) (len m) ->
  exists r, cmp_loop dbg v w i n = Ok r /\
    match r with
    | Some c => c <> Eq /\ agree c (drop i l) (drop i m)
    | None => exists p, drop i l = p ++ drop (i + Z.of_nat n) l /\ drop i m = p ++ drop (i + Z.of_nat n) m
    end.
Proof.
  induction n as [|n IH]; intros l m i V W H0 H1.
  - exists None. split; [reflexivity|]. exists []. rewrite Z.add_0_r. auto.
  - cbn [cmp_loop]. pose proof V as (_ & _ & _ & _ & AV & _). pose proof W as (_ & _ & _ & _ & AW & _).
    rewrite (AV i (zn l i)) by (apply at_zn; lia). rewrite (AW i (zn m i)) by (apply at_zn; lia). cbn [bind].
    rewrite (drop_step l i), (drop_step m i) by lia.
    destruct (Z.ltb_spec (zn l i) (zn m i)) as [A|A]; [exists (Some Lt); split; [reflexivity|split; [discriminate|constructor; exact A]]|].
    destruct (Z.ltb_spec (zn m i) (zn l i)) as [B|B]; [exists (Some Gt); split; [reflexivity|split; [discriminate|constructor; exact B]]|].
    assert (E : zn l i = zn m i) by lia.
    destruct (IH l m (i + 1) V W) as (r & ER & HR); [lia|lia|]. rewrite ER. exists r. split; [reflexivity|].
    destruct r as [c|].
    + destruct HR as [N HR]. split; [exact N|]. rewrite E. destruct c; cbn in *; [congruence|apply lex_tail; exact HR|apply lex_tail; exact HR].
    + destruct HR as (p & P1 & P2). exists (zn m i :: p). replace (i + Z.of_nat (S n)) with (i + 1 + Z.of_nat n) by lia.
      rewrite P1, P2, E. auto.
Qed.

Lemma lex_prefix p x l : lex_lt p (p ++ x :: l).
Proof. induction p; cbn; [apply lex_nil|apply lex_tail; assumption]. Qed.

Lemma vec_cmp_ok v w l m : vrep v l -> vrep w m -> exists c, vec_cmp dbg v w = Ok c /\ agree c l m.
Proof.
  intros V W. apply vrep_shows in V, W. unfold vec_cmp.
  pose proof V as (V1 & V2 & _). pose proof W as (W1 & W2 & _). rewrite V2, W2. cbn [bind].
  pose proof (len_nonneg l). pose proof (len_nonneg m).
  destruct (cmp_loop_ok v w (Z.to_nat (Z.min (len l) (len m))) l m 0 V W) as (r & ER & HR); [lia|lia|]. rewrite ER; cbn [bind].
  rewrite !drop_0 in HR. destruct r as [c|].
  - destruct HR as [_ HR]. eauto.
  - destruct HR as (p & P1 & P2). rewrite Z.add_0_l, Z2Nat.id in P1, P2 by lia.
    destruct (Z.ltb_spec (len l) (len m)).
    + exists Lt. split; [reflexivity|]. cbn. rewrite Z.min_l in P1, P2 by lia.
      rewrite (drop_all _ l), app_nil_r in P1 by lia. rewrite (drop_step m) in P2 by lia.
      rewrite P2, P1 at 1. apply lex_prefix.
    + destruct (Z.ltb_spec (len m) (len l)).
      * exists Gt. split; [reflexivity|]. cbn. rewrite Z.min_r in P1, P2 by lia.
        rewrite (drop_all _ m), app_nil_r in P2 by lia. rewrite (drop_step l) in P1 by lia.
        rewrite P1, P2 at 1. apply lex_prefix.
      * exists Eq. split; [reflexivity|]. cbn. rewrite Z.min_l in P1, P2 by lia.
        rewrite (drop_all _ l), app_nil_r in P1 by lia. rewrite (drop_all _ m), app_nil_r in P2 by lia. congruence.
Qed.
End K.

Lemma lex_trans l m p : lex_lt l m -> lex_lt m p -> lex_lt l p.
Proof.
  intros H; revert p. induction H as [x l|x y l l' XY|x l l' H IH]; intros p H2; inversion H2; subst.
  - apply lex_nil.
  - apply lex_nil.
  - apply lex_head; lia.
  - apply lex_head; assumption.
  - apply lex_head; assumption.
  - apply lex_tail; auto.
Qed.
Lemma lex_irrefl l : ~ lex_lt l l.
Proof. induction l as [|x l IH]; intros H; inversion H; subst; [lia|auto]. Qed.
Lemma lex_total l : forall m, lex_lt l m \/ l = m \/ lex_lt m l.
Proof.
  induction l as [|x l IH]; intros [|y m]; [auto|left; constructor|right; right; constructor|].
  destruct (Z.lt_trichotomy x y) as [A|[->|A]]; [left; constructor; exact A| |right; right; constructor; exact A].
  destruct (IH m) as [A|[->|A]]; [left; apply lex_tail; exact A|auto|right; right; apply lex_tail; exact A].
Qed.
