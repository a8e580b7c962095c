(** References into the vector as arguments of insert, emplace, resize and assign. *)
Require Import ZArith List Bool Lia.
From Verif Require Import Base BaseProofs VecSpec VecModel VecStatements VecOwnStatements VecProofs VecProofs2 VecProofs3 VecProofs4 VecProofs5.
Import ListNotations.
Open Scope Z_scope.

Section K.
Variable k : kind.
Variable sz : Z.
Variable dbg : bool.
Hypothesis SZ : size_ok sz.
Notation vrep := (VecProofs2.vrep k sz).

Definition stays : Prop := k = KTriv \/ k = KCopyMove.

Lemma construct_at b a i v b' a' : construct k b a i v = Ok (b', a') -> b' = set b i (Live v).
Proof. unfold construct. destruct (get b i); [|discriminate|discriminate]. cbn [bind]. intros E. injection E as <- _. reflexivity. Qed.
Lemma shift_one_src b a i j b' a' : stays -> shift_one k b a i j = Ok (b', a') -> forall x, x <> j -> b_at b' x = b_at b x.
Proof.
  intros ST E x X. unfold shift_one in E. destruct (read b i) as [v| |]; try discriminate. cbn [bind] in E.
  destruct ST as [K|K]; rewrite K in E; rewrite <- K in E; apply construct_at in E; subst b'; apply set_other; exact X.
Qed.
Lemma shift_up_src : stays -> forall n b a d s b' a', shift_up k b a d s n = Ok (b', a') -> forall x, ~ d <= x < d + Z.of_nat n -> b_at b' x = b_at b x.
Proof.
  intros ST. induction n as [|n IH]; intros b a d s b' a' E x X; cbn [shift_up] in E; [injection E as <- _; reflexivity|].
  destruct (shift_one k b a s d) as [[b1 a1]| |] eqn:E1; try discriminate. cbn [bind] in E. rewrite (IH _ _ _ _ _ _ E) by lia. eapply shift_one_src; [exact ST|exact E1|lia].
Qed.
Lemma shift_down_src : stays -> forall n b a d s b' a', shift_down k b a d s n = Ok (b', a') -> forall x, ~ d <= x < d + Z.of_nat n -> b_at b' x = b_at b x.
Proof.
  intros ST. induction n as [|n IH]; intros b a d s b' a' E x X; cbn [shift_down] in E; [injection E as <- _; reflexivity|].
  destruct (shift_one k b a (s + Z.of_nat n) (d + Z.of_nat n)) as [[b1 a1]| |] eqn:E1; try discriminate. cbn [bind] in E.
  rewrite (IH _ _ _ _ _ _ E) by lia. eapply shift_one_src; [exact ST|exact E1|lia].
Qed.
Lemma store_at b i v b' : store k b i v = Ok b' -> b' = set b i (Live v).
Proof. unfold store. destruct (get b i) as [c| |]; try discriminate. cbn [bind]. destruct k, c; congruence. Qed.
Lemma store_down_src : forall n b d s b', store_down k b d s n = Ok b' -> forall x, ~ d <= x < d + Z.of_nat n -> b_at b' x = b_at b x.
Proof.
  induction n as [|n IH]; intros b d s b' E x X; cbn [store_down] in E; [injection E as <-; reflexivity|].
  destruct (read b (s + Z.of_nat n)) as [v| |]; try discriminate. cbn [bind] in E. destruct (store k b (d + Z.of_nat n) v) as [b1| |] eqn:E1; try discriminate. cbn [bind] in E.
  rewrite (IH _ _ _ _ E) by lia. rewrite (store_at _ _ _ _ E1). apply set_other. lia.
Qed.
Lemma forward_src b a d s e b' a' : stays -> s <= e -> move_forward k dbg b a d s e = Ok (b', a') -> forall x, ~ d <= x < d + (e - s) -> b_at b' x = b_at b x.
Proof.
  intros ST H E x X. unfold move_forward, move_range_forward in E. destruct (assert dbg _); try discriminate. cbn [bind] in E.
  destruct (assert dbg _); try discriminate. cbn [bind] in E. destruct (assert dbg _); try discriminate. cbn [bind] in E. destruct (is_relocatable k).
  - destruct (in_range b s (e - s) && in_range b d (e - s)); [|discriminate]. injection E as <- _. cbn [b_at].
    destruct (Z.leb_spec d x), (Z.ltb_spec x (d + (e - s))); cbn [andb]; try reflexivity. lia.
  - eapply shift_up_src; [exact ST|exact E|lia].
Qed.
Lemma backward_src b a d s e b' a' : stays -> s <= e -> move_backward k dbg b a d s e = Ok (b', a') -> forall x, ~ d <= x < d + (e - s) -> b_at b' x = b_at b x.
Proof.
  intros ST H E x X. unfold move_backward in E. destruct (assert dbg _); try discriminate. cbn [bind] in E. destruct (assert dbg _); try discriminate. cbn [bind] in E. destruct (is_relocatable k).
  - destruct (store_down k b d s (Z.to_nat (e - s))) as [b1| |] eqn:E1; try discriminate. cbn [bind] in E. injection E as <- _. eapply store_down_src; [exact E1|lia].
  - eapply shift_down_src; [exact ST|exact E|lia].
Qed.
Lemma gap_src b a pos n size b' a' : stays -> pos <= size -> open_gap k dbg b a pos n size = Ok (b', a') -> forall x, ~ pos + n <= x < size + n -> b_at b' x = b_at b x.
Proof.
  intros ST H E x X. unfold open_gap in E. destruct (size <=? pos + n); [eapply forward_src|eapply backward_src]; try eassumption; lia.
Qed.
Lemma gap1_src b a pos size b' a' : stays -> pos <= size -> open_gap1 k dbg b a pos size = Ok (b', a') -> forall x, ~ pos + 1 <= x < size + 1 -> b_at b' x = b_at b x.
Proof.
  intros ST H E x X. unfold open_gap1 in E. destruct (pos <? size - 1); [eapply backward_src|eapply forward_src]; try eassumption; lia.
Qed.

(** What is read through the reference after the gap has been made. *)
Definition looked (o : option Z) : res Z := match o with Some x => Ok x | None => Undef end.
Lemma gap_reads b b2 size cap l pos n j : vrep (Vec (Some b) size cap) l -> k <> KReloc -> 0 <= pos <= size -> 0 < n -> size + n <= cap -> 0 <= j < size ->
  moved_to k b b2 (pos + n) pos (size - pos) -> (stays -> forall x, ~ pos + n <= x < size + n -> b_at b2 x = b_at b x) ->
  read b2 j = looked (seen k pos n j l).
Proof.
  intros (Hs & Hc & Hb & C0 & BL & BV & BS) KR P N R J (L1 & F1 & G1 & O1) ST. unfold read. rewrite get_ok by lia. cbn [bind]. unfold seen.
  destruct (Z.ltb_spec j pos).
  - rewrite O1 by lia. rewrite BV, at_zn by lia. reflexivity.
  - destruct (Z.ltb_spec j (pos + n)).
    + pose proof (G1 j ltac:(lia) ltac:(lia)) as SP. unfold spare in SP. unfold stays in ST. destruct k; try congruence;
        first [solve [rewrite ST, BV, at_zn by (auto || lia); reflexivity]|solve [rewrite SP; reflexivity]|solve [destruct (b_at b2 j); reflexivity || discriminate SP || contradiction]].
    + rewrite F1 by lia. rewrite BV, at_zn by lia. cbn. do 2 f_equal. lia.
Qed.
Lemma fill_own x j : forall n b a i, 0 <= j < b_len b -> b_at b j = Live x ->
  fill_loop k b a i n (Elem j) false = fill_loop k b a i n (Val x) false.
Proof.
  induction n as [|n IH]; intros b a i HJ HX; [reflexivity|]. cbn [fill_loop read_ref bind]. rewrite (read_ok b j x) by assumption. cbn [bind].
  destruct (construct k b a i x) as [[b1 a1]| |] eqn:E; try reflexivity. cbn [bind]. apply construct_at in E. subst b1. apply IH; [exact HJ|].
  destruct (Z.eq_dec j i) as [->|]; [apply set_same|]. rewrite set_other by assumption. exact HX.
Qed.

Section M.
Variable mal : Z -> bool.
Hypothesis MS : malloc_sane mal.
Notation run := (run_uop k sz dbg mal).

(** The same call with a value. *)
Definition with_val (o : uop) (x : Z) : uop :=
  match o with
  | UInsert safe pos _ => UInsert safe pos (Val x)
  | UEmplace safe pos _ => UEmplace safe pos (Val x)
  | UInsertN safe pos n _ => UInsertN safe pos n (Val x)
  | UResizeVal n _ => UResizeVal n (Val x)
  | UAssignN n _ => UAssignN n (Val x)
  | _ => o
  end.
Lemma one_in_place b size cap l a safe pos j (cpy : buf -> acct -> Z -> Z -> res (buf * acct)) (r : ref) :
  vrep (Vec (Some b) size cap) l -> k <> KReloc -> 0 <= pos <= size -> size < cap -> 0 <= j < size ->
  let m r := (do (b1, s1, c1, a1, threw, moved) <- grow_for k sz dbg mal safe (Some b) size cap a true 1;
          if threw : bool then Ok (Vec (Some b) size cap, a, Threw) else
          do f <- full dbg s1 c1;
          do _ <- assert dbg (negb f);
          do bf <- need b1;
          do (b2, a2) <- (if pos =? s1 then Ok (bf, a1) else open_gap1 k dbg bf a1 pos s1);
          do x <- read_ref (if moved then None else Some b2) r;
          do (b3, a3) <- cpy b2 a2 pos x;
          Ok (Vec (Some b3) (s1 + 1) c1, a3, Done pos)) in
  m (Elem j) = match seen k pos 1 j l with Some x => m (Val x) | None => Undef end.
Proof.
  intros R KR P C J m. pose proof R as (Hs & Hc & Hb & C0 & BL & BV & BS).
  assert (G : grow_for k sz dbg mal safe (Some b) size cap a true 1 = Ok (Some b, size, cap, a, false, false)).
  { unfold grow_for, full. destruct safe; [|reflexivity]. rewrite assert_ok by (apply Z.leb_le; lia). cbn [bind]. destruct (Z.eqb_spec size cap); [lia|reflexivity]. }
  unfold m. rewrite G. cbn [bind]. unfold full. rewrite !assert_ok by (apply Z.leb_le; lia). cbn [bind]. destruct (Z.eqb_spec size cap) as [|_]; [lia|].
  rewrite !assert_ok by reflexivity. cbn [bind need].
  assert (X : exists b2 a2, (if pos =? size then Ok (b, a) else open_gap1 k dbg b a pos size) = Ok (b2, a2) /\ read b2 j = looked (seen k pos 1 j l)).
  { destruct (Z.eqb_spec pos size) as [->|N].
    - exists b, a. split; [reflexivity|]. apply (gap_reads b b size cap l size 1 j R KR); try lia; [|reflexivity].
      repeat split; intros; lia || reflexivity.
    - destruct (open_gap1_ok k dbg b a pos size KR) as (b2 & a2 & EG & K2 & M); try lia.
      { intros x Hx; eexists; apply BV; lia. } { apply BS; lia. }
      exists b2, a2. split; [exact EG|]. apply (gap_reads b b2 size cap l pos 1 j R KR); try lia; [exact M|].
      intros ST. eapply gap1_src; [exact ST|lia|exact EG]. }
  destruct X as (b2 & a2 & E2 & RD). rewrite E2. cbn [bind read_ref]. rewrite RD. destruct (seen k pos 1 j l); reflexivity.
Qed.
Lemma many_in_place b size cap l a safe pos n j :
  vrep (Vec (Some b) size cap) l -> k <> KReloc -> 0 <= pos <= size -> 0 < n -> size + n <= cap -> 0 <= j < size ->
  run (Vec (Some b) size cap) a (UInsertN safe pos n (Elem j)) =
    match seen k pos n j l with Some x => run (Vec (Some b) size cap) a (UInsertN safe pos n (Val x)) | None => Undef end.
Proof.
  intros R KR P N C J. pose proof R as (Hs & Hc & Hb & C0 & BL & BV & BS). pose proof (len_nonneg l) as LN.
  assert (W : size + n < M64) by (apply (sz_word sz SZ); [lia|]; pose proof (mul_pos_lt sz SZ (size + n) cap C); unfold HALF, M64 in *; lia).
  assert (G : grow_for k sz dbg mal safe (Some b) size cap a false n = Ok (Some b, size, cap, a, false, false)).
  { unfold grow_for. destruct safe; [|reflexivity]. cbn [bind]. unfold add64. rewrite Z.mod_small by lia. destruct (Z.ltb_spec cap (size + n)); [lia|reflexivity]. }
  cbn [run_uop]. rewrite !assert_ok by (apply Z.ltb_lt; lia). cbn [bind].
  rewrite !assert_ok by (destruct (Z.leb_spec 0 pos), (Z.leb_spec pos size); cbn; reflexivity || lia). cbn [bind]. rewrite G. cbn [bind].
  unfold add64. rewrite !Z.mod_small by lia. rewrite !assert_ok by (apply Z.leb_le; lia). cbn [bind need]. destruct (Z.ltb_spec (b_len b) (pos + n)); [lia|].
  destruct (open_gap_ok k dbg b a pos n size KR) as (b2 & a2 & EG & K2 & M); try lia.
  { intros x Hx; eexists; apply BV; lia. } { intros; apply BS; lia. }
  rewrite EG. cbn [bind]. pose proof (gap_reads b b2 size cap l pos n j R KR P N C J M (fun ST => gap_src b a pos n size b2 a2 ST (proj2 P) EG)) as RD.
  unfold construct_range_with_cref. rewrite !assert_ok by reflexivity. cbn [bind]. rewrite !assert_ok by (apply Z.ltb_lt; lia). cbn [bind].
  destruct (seen k pos n j l) as [x|]; cbn [looked] in RD.
  - apply read_inv in RD. destruct RD as (B & RD). rewrite (fill_own x j) by assumption. reflexivity.
  - replace (Z.to_nat (pos + n - pos)) with (S (Z.to_nat (n - 1))) by lia. cbn [fill_loop read_ref]. rewrite RD. reflexivity.
Qed.
Lemma insert_in_place b size cap l a o safe pos n j :
  vrep (Vec (Some b) size cap) l -> k <> KReloc -> inserts_own o safe pos n j -> 0 <= pos <= size -> 0 < n -> size + n <= cap -> 0 <= j < size ->
  run (Vec (Some b) size cap) a o = match seen k pos n j l with Some x => run (Vec (Some b) size cap) a (with_val o x) | None => Undef end.
Proof.
  intros R KR [->|[-> [->| ->]]] P N C J; cbn [with_val]; [apply many_in_place; assumption| |].
  - cbn [run_uop]. rewrite !assert_ok by (destruct (Z.leb_spec 0 pos), (Z.leb_spec pos size); cbn; reflexivity || lia). cbn [bind].
    pose proof (one_in_place b size cap l a safe pos j (copy_value k) (Elem j) R KR P ltac:(lia) J) as E. cbv zeta in E. rewrite E. reflexivity.
  - cbn [run_uop]. pose proof (one_in_place b size cap l a safe pos j (construct k) (Elem j) R KR P ltac:(lia) J) as E. cbv zeta in E. rewrite E. reflexivity.
Qed.
(** With a new buffer the reference dangles. *)
Definition lost (m : res (vec * acct * outc)) : Prop := m = Undef \/ (exists v a, m = Ok (v, a, Threw)) /\ exists n, mal n = false.
Lemma realloc_cases b size cap l a n : vrep (Vec (Some b) size cap) l -> size <= n -> cap < n -> n * sz < M64 ->
  (realloc_with_old_data k sz dbg mal (Some b) size cap a n = Ok (Vec (Some b) size cap, a, false) /\ exists x, mal x = false) \/
  (exists b' a', realloc_with_old_data k sz dbg mal (Some b) size cap a n = Ok (Vec (Some b') size n, a', true) /\ vrep (Vec (Some b') size n) l).
Proof.
  intros R H1 H2 H3. pose proof R as (Hs & Hc & Hb & C0 & _). pose proof (len_nonneg l).
  destruct (realloc_ok k sz dbg SZ mal MS (Some b) size cap l a n R) as [[E1 E2]|[E1 (b' & a' & E2 & V & KK)]]; try lia.
  - left. eauto.
  - right. eauto.
Qed.
Lemma one_grows b size cap l a pos j (cpy : buf -> acct -> Z -> Z -> res (buf * acct)) :
  vrep (Vec (Some b) size cap) l -> k <> KReloc -> 0 <= pos <= size -> size = cap -> 0 <= j < size ->
  lost (do (b1, s1, c1, a1, threw, moved) <- grow_for k sz dbg mal true (Some b) size cap a true 1;
          if threw : bool then Ok (Vec (Some b) size cap, a, Threw) else
          do f <- full dbg s1 c1;
          do _ <- assert dbg (negb f);
          do bf <- need b1;
          do (b2, a2) <- (if pos =? s1 then Ok (bf, a1) else open_gap1 k dbg bf a1 pos s1);
          do x <- read_ref (if moved then None else Some b2) (Elem j);
          do (b3, a3) <- cpy b2 a2 pos x;
          Ok (Vec (Some b3) (s1 + 1) c1, a3, Done pos)).
Proof.
  intros R KR P C J. pose proof R as (Hs & Hc & Hb & C0 & BL & BV & BS). pose proof (len_nonneg l).
  destruct (next_facts sz cap SZ) as (NF1 & NF2 & _); [lia|exact Hb|].
  unfold grow_for, full. rewrite assert_ok by (apply Z.leb_le; lia). cbn [bind]. destruct (Z.eqb_spec size cap); [|lia]. cbn [bind].
  destruct (Z.ltb_spec cap (next_capacity sz cap)); [|lia].
  destruct (realloc_cases b size cap l a (next_capacity sz cap) R) as [(E & EX)|(b' & a' & E & R1)]; try lia; rewrite E; cbn [bind negb].
  - right. eauto.
  - pose proof R1 as (_ & _ & _ & C0' & BL' & BV' & BS'). rewrite assert_ok by (apply Z.leb_le; lia). cbn [bind]. destruct (Z.eqb_spec size (next_capacity sz cap)) as [|_]; [lia|].
    rewrite assert_ok by reflexivity. cbn [bind need]. left. destruct (Z.eqb_spec pos size).
    + reflexivity.
    + destruct (open_gap1_ok k dbg b' a' pos size KR) as (b2 & a2 & EG & K2 & M); try lia.
      { intros x Hx; eexists; apply BV'; lia. } { apply BS'; lia. }
      rewrite EG. reflexivity.
Qed.
Lemma insert_grows b size cap l a o pos n j :
  vrep (Vec (Some b) size cap) l -> k <> KReloc -> inserts_own o true pos n j -> 0 <= pos <= size -> 0 < n -> cap < size + n -> fits sz (size + n) -> 0 <= j < size ->
  lost (run (Vec (Some b) size cap) a o).
Proof.
  intros R KR [->|[-> [->| ->]]] P N C F J; pose proof R as (Hs & Hc & Hb & C0 & BL & BV & BS); pose proof (len_nonneg l) as LN.
  - destruct F as (F0 & F1). pose proof (sz_word sz SZ _ F0 F1). destruct (next_facts sz cap SZ) as (NF1 & NF2 & _); [lia|exact Hb|].
    cbn [run_uop]. rewrite assert_ok by (apply Z.ltb_lt; lia). cbn [bind]. rewrite assert_ok by (destruct (Z.leb_spec 0 pos), (Z.leb_spec pos size); cbn; reflexivity || lia). cbn [bind].
    unfold grow_for. cbn [bind]. unfold add64. rewrite !Z.mod_small by lia. destruct (Z.ltb_spec cap (size + n)); [|lia]. rewrite (compute_new_ok sz dbg) by lia. cbn [bind].
    set (want := Z.max (next_capacity sz cap) (size + n)).
    assert (W1 : size + n <= want) by (unfold want; lia).
    assert (W2 : want * sz < M64) by (unfold want; destruct (Z.max_spec (next_capacity sz cap) (size + n)) as [[_ ->]|[_ ->]]; assumption).
    destruct (Z.ltb_spec cap want); [|lia].
    destruct (realloc_cases b size cap l a want R) as [(E & EX)|(b' & a' & E & R1)]; try lia; rewrite E; cbn [bind negb].
    + right. eauto.
    + pose proof R1 as (_ & _ & _ & C0' & BL' & BV' & BS'). rewrite ?Z.mod_small by lia. rewrite assert_ok by (apply Z.leb_le; lia). cbn [bind need]. destruct (Z.ltb_spec (b_len b') (pos + n)); [lia|].
      destruct (open_gap_ok k dbg b' a' pos n size KR) as (b2 & a2 & EG & K2 & M); try lia.
      { intros x Hx; eexists; apply BV'; lia. } { intros; apply BS'; lia. }
      rewrite EG. cbn [bind]. left. unfold construct_range_with_cref. rewrite assert_ok by reflexivity. cbn [bind]. rewrite assert_ok by (apply Z.ltb_lt; lia). cbn [bind].
      replace (Z.to_nat (pos + n - pos)) with (S (Z.to_nat (n - 1))) by lia. reflexivity.
  - cbn [run_uop]. rewrite assert_ok by (destruct (Z.leb_spec 0 pos), (Z.leb_spec pos size); cbn; reflexivity || lia). cbn [bind]. eapply one_grows; try eassumption; lia.
  - cbn [run_uop]. eapply one_grows; try eassumption; lia.
Qed.
Lemma resize_in_place b size cap l a n j : vrep (Vec (Some b) size cap) l -> 0 <= n <= cap -> 0 <= j < size ->
  run (Vec (Some b) size cap) a (UResizeVal n (Elem j)) = run (Vec (Some b) size cap) a (UResizeVal n (Val (zn l j))).
Proof.
  intros R N J. pose proof R as (Hs & Hc & Hb & C0 & BL & BV & BS). cbn [run_uop]. destruct (Z.ltb_spec size n); [|reflexivity]. destruct (Z.ltb_spec cap n); [lia|].
  cbn [bind negb]. unfold construct_range_with_cref. rewrite (fill_own (zn l j) j) by (lia || apply BV; lia). reflexivity.
Qed.
Lemma resize_grows b size cap l a n j : vrep (Vec (Some b) size cap) l -> cap < n -> fits sz n -> 0 <= j < size -> lost (run (Vec (Some b) size cap) a (UResizeVal n (Elem j))).
Proof.
  intros R N (F0 & F1) J. pose proof R as (Hs & Hc & Hb & C0 & BL & BV & BS). cbn [run_uop]. destruct (Z.ltb_spec size n); [|lia]. destruct (Z.ltb_spec cap n); [|lia].
  destruct (realloc_cases b size cap l a n R) as [(E & EX)|(b' & a' & E & R1)]; try lia; rewrite E; cbn [bind negb].
  - right. eauto.
  - left. unfold construct_range_with_cref. rewrite assert_ok by reflexivity. cbn [bind]. rewrite assert_ok by (apply Z.ltb_lt; lia). cbn [bind].
    replace (Z.to_nat (n - size)) with (S (Z.to_nat (n - size - 1))) by lia. reflexivity.
Qed.
Lemma destroy_triv : k = KTriv -> forall n b a i, destroy_range k b a i n = Ok (b, a).
Proof. intros K. induction n as [|n IH]; intros b a i; [reflexivity|]. cbn [destroy_range]. unfold kill. rewrite K. cbn [bind]. rewrite <- K. apply IH. Qed.
Lemma destroyed : k <> KTriv -> forall n b a i b' a', destroy_range k b a i n = Ok (b', a') -> (forall x, i <= x < i + Z.of_nat n -> b_at b' x = Raw) /\ forall x, ~ i <= x < i + Z.of_nat n -> b_at b' x = b_at b x.
Proof.
  intros K. induction n as [|n IH]; intros b a i b' a' E; cbn [destroy_range] in E; [injection E as <- _; split; intros; lia || reflexivity|].
  destruct (kill k b a i) as [[b1 a1]| |] eqn:E1; try discriminate. cbn [bind] in E. destruct (IH _ _ _ _ _ E) as (I1 & I2).
  assert (S1 : b1 = set b i Raw).
  { unfold kill in E1. destruct k; try congruence; (destruct (get b i) as [c| |]; try discriminate; cbn [bind] in E1; destruct c; congruence). }
  subst b1. split; intros x Hx; [destruct (Z.eq_dec x i) as [->|]; [|apply I1; lia]|]; rewrite I2 by lia; [apply set_same|apply set_other; lia].
Qed.
Lemma assign_in_place b size cap l a n j : vrep (Vec (Some b) size cap) l -> 0 < n <= cap -> 0 <= j < size ->
  run (Vec (Some b) size cap) a (UAssignN n (Elem j)) =
    match k with KTriv => run (Vec (Some b) size cap) a (UAssignN n (Val (zn l j))) | _ => Undef end.
Proof.
  intros R N J. pose proof R as (Hs & Hc & Hb & C0 & BL & BV & BS).
  assert (D : k = KTriv \/ k <> KTriv) by (destruct k; auto; right; discriminate). destruct D as [D|D].
  - replace (match k with KTriv => run (Vec (Some b) size cap) a (UAssignN n (Val (zn l j))) | _ => Undef end) with (run (Vec (Some b) size cap) a (UAssignN n (Val (zn l j)))) by (rewrite D; reflexivity).
    cbn [run_uop]. destruct (Z.ltb_spec cap n); [lia|]. unfold core_clear. rewrite assert_ok by (apply Z.leb_le; lia). cbn [bind]. rewrite (destroy_triv D). cbn [bind].
    unfold construct_range_with_cref. rewrite (fill_own (zn l j) j) by (lia || apply BV; lia). reflexivity.
  - replace (match k with KTriv => run (Vec (Some b) size cap) a (UAssignN n (Val (zn l j))) | _ => Undef end) with (@Undef (vec * acct * outc)) by (destruct k; congruence).
    cbn [run_uop]. destruct (Z.ltb_spec cap n); [lia|]. destruct (core_clear_ok k sz dbg (Some b) size cap l a R) as (b1 & a1 & E1 & K1 & R1 & N1). rewrite E1. cbn [bind].
    unfold core_clear in E1. rewrite assert_ok in E1 by (apply Z.leb_le; lia). cbn [bind] in E1. destruct (destroy_range k b a 0 (Z.to_nat size)) as [[b2 a2]| |] eqn:E2; try discriminate.
    cbn [bind] in E1. injection E1 as <- <-. destruct (destroyed D _ _ _ _ _ _ E2) as (DR & _).
    unfold construct_range_with_cref. rewrite assert_ok by reflexivity. cbn [bind]. rewrite assert_ok by (apply Z.ltb_lt; lia). cbn [bind].
    replace (Z.to_nat (n - 0)) with (S (Z.to_nat (n - 1))) by lia. cbn [fill_loop read_ref]. unfold read. destruct R1 as (_ & _ & _ & _ & BL2 & _). rewrite get_ok by lia. cbn [bind].
    rewrite DR by lia. reflexivity.
Qed.
Lemma assign_grows b size cap l a n j : vrep (Vec (Some b) size cap) l -> cap < n -> fits sz n -> 0 <= j < size -> lost (run (Vec (Some b) size cap) a (UAssignN n (Elem j))).
Proof.
  intros R N (F0 & F1) J. pose proof R as (Hs & Hc & Hb & C0 & BL & BV & BS). cbn [run_uop]. destruct (Z.ltb_spec cap n); [|lia].
  destruct (drop_ok k sz dbg SZ mal MS (Some b) size cap l a n R) as [[E E2]|(a1 & E & K1 & H1)]; [lia|assumption| |]; rewrite E; cbn [bind].
  - right. eauto.
  - left. unfold construct_range_with_cref. rewrite assert_ok by reflexivity. cbn [bind]. rewrite assert_ok by (apply Z.ltb_lt; lia). cbn [bind].
    replace (Z.to_nat (n - 0)) with (S (Z.to_nat (n - 1))) by lia. reflexivity.
Qed.
(** Without a new buffer nothing is thrown. *)
Lemma bind_no_throw {A} (m : res A) (f : A -> res (vec * acct * outc)) :
  (forall x, m = Ok x -> forall v a, f x <> Ok (v, a, Threw)) -> forall v a, bind m f <> Ok (v, a, Threw).
Proof. intros H v a. destruct m; cbn [bind]; try discriminate. apply H. reflexivity. Qed.
Ltac calm := repeat (cbn [bind negb]; match goal with
  | |- context [let '(_, _) := ?p in _] => destruct p
  | |- forall v a, Ok (_, _, Done _) <> _ => discriminate
  | |- forall v a, Undef <> _ => discriminate
  | |- forall v a, (if ?c then _ else _) <> _ => destruct c
  | |- forall v a, match ?c with Vec _ _ _ => _ | Broken => _ end <> _ => destruct c
  | |- _ => apply bind_no_throw; intros ? _
  end).
Lemma in_place_done b size cap l a o safe pos n j x : vrep (Vec (Some b) size cap) l -> 0 < n -> size + n <= cap -> inserts_own o safe pos n j ->
  forall v' a', run (Vec (Some b) size cap) a (with_val o x) <> Ok (v', a', Threw).
Proof.
  intros R N C I. pose proof R as (Hs & Hc & Hb & C0 & BL & BV & BS). pose proof (len_nonneg l) as LN.
  assert (W : size + n < M64) by (apply (sz_word sz SZ); [lia|]; pose proof (mul_pos_lt sz SZ (size + n) cap C); unfold HALF, M64 in *; lia).
  assert (G1 : forall n, size < cap -> grow_for k sz dbg mal safe (Some b) size cap a true n = Ok (Some b, size, cap, a, false, false)).
  { intros. unfold grow_for, full. destruct safe; [|reflexivity]. rewrite assert_ok by (apply Z.leb_le; lia). cbn [bind]. destruct (Z.eqb_spec size cap); [lia|reflexivity]. }
  assert (G2 : grow_for k sz dbg mal safe (Some b) size cap a false n = Ok (Some b, size, cap, a, false, false)).
  { unfold grow_for. destruct safe; [|reflexivity]. cbn [bind]. unfold add64. rewrite Z.mod_small by lia. destruct (Z.ltb_spec cap (size + n)); [lia|reflexivity]. }
  destruct I as [->|[-> [->| ->]]]; cbn [with_val run_uop].
  - rewrite G2. calm.
  - rewrite G1 by lia. calm.
  - rewrite G1 by lia. calm.
Qed.
Lemma resize_done b size cap a n x : n <= cap -> forall v' a', run (Vec (Some b) size cap) a (UResizeVal n (Val x)) <> Ok (v', a', Threw).
Proof. intros C. cbn [run_uop]. destruct (Z.ltb_spec cap n); [lia|]. calm. Qed.
Lemma assign_done b size cap a n x : n <= cap -> forall v' a', run (Vec (Some b) size cap) a (UAssignN n (Val x)) <> Ok (v', a', Threw).
Proof. intros C. cbn [run_uop]. destruct (Z.ltb_spec cap n); [lia|]. calm. Qed.
End M.
End K.
