(** stdb_vector: the operations, one by one. *)
Require Import ZArith List Bool Lia.
From Verif Require Import Base BaseProofs VecSpec VecModel VecStatements VecProofs VecProofs2.
Import ListNotations.
Open Scope Z_scope.

Section K.
Variable k : kind.
Variable sz : Z.
Variable dbg : bool.
Hypothesis SZ : size_ok sz.
Variable mal : Z -> bool.
Hypothesis MS : malloc_sane mal.

Notation vrep := (vrep k sz).
Notation good := (good k sz mal).

Ltac done_ := eexists; eexists; eexists; split; [reflexivity|]; cbn beta iota.
Ltac fin := split; [assumption|split; [first [assumption | apply keeps_refl | eapply keeps_trans; eassumption]|reflexivity]].

Lemma vrep_new n : 0 < n -> n * sz < HALF -> vrep (Vec (Some {| b_len := n; b_at := fun _ => Raw |}) 0 n) [].
Proof.
  intros. split; [reflexivity|]. split; [lia|]. split; [assumption|]. split; [assumption|]. split; [reflexivity|].
  split; [intros; lia|intros; apply spare_raw].
Qed.
Lemma len0 l : len l = 0 -> l = [].
Proof. destruct l; [reflexivity|]. rewrite len_cons. pose proof (len_nonneg l); lia. Qed.

(** realloc_drop_old_data, then fill with [f]. *)
Lemma drop_ok b size cap l a n :
  vrep (Vec b size cap) l -> 0 < n -> n * sz < M64 ->
  (realloc_drop_old_data k sz dbg mal b size a n = Ok (None, if match b with None => true | _ => false end then a else
       match core_destroy k b size a with Ok x => x | _ => a end) /\ mal (n * sz) = false) \/
  (exists a', realloc_drop_old_data k sz dbg mal b size a n = Ok (Some {| b_len := n; b_at := fun _ => Raw |}, a') /\
     keeps k a a' /\ n * sz < HALF).
Proof.
  intros R N0 N1. destruct (core_destroy_ok k sz b size cap l a R) as (a' & E & KK & NN).
  unfold realloc_drop_old_data, allocate. rewrite E; cbn [bind]. rewrite assert_ok by (apply Z.ltb_lt; lia). cbn [bind].
  destruct (malloc_ok sz SZ mal MS n) as [[E1 E2]|[E1 [E2 E3]]]; [lia|lia| |]; rewrite E1.
  - left. split; [|exact E2]. destruct b; [reflexivity|]. rewrite NN; reflexivity.
  - right. eauto.
Qed.

Lemma assign_n_ok b size cap l a n x l' r' :
  vrep (Vec b size cap) l -> allowed k sz dbg mal (Vec b size cap) (UAssignN n (Val x)) ->
  apply (UAssignN n (Val x)) l = Some (l', r') ->
  good (Vec b size cap) a (UAssignN n (Val x)) l' r' (run_uop k sz dbg mal (Vec b size cap) a (UAssignN n (Val x))).
Proof.
  intros R (_ & _ & HN & F0 & F1) HA. cbn in HA. destruct (Z.ltb_spec n 0); [lia|]. injection HA as <- <-.
  pose proof (len_nonneg l) as LN. pose proof R as (Hs & Hc & Hb & HB). cbn [run_uop].
  destruct (Z.ltb_spec cap n).
  - destruct (drop_ok b size cap l a n R) as [[E E2]|(a1 & E & K1 & H1)]; [lia|assumption| |]; rewrite E; cbn [bind].
    + done_. split; [eauto|]. destruct b; [right; reflexivity|]. left. cbn. split; [f_equal; lia|reflexivity].
    + pose proof (vrep_new n ltac:(lia) H1) as R1.
      destruct (cref_ok k sz dbg _ 0 n [] a1 n x true R1) as (b2 & a2 & E2 & K2 & R2); [lia|].
      rewrite E2; cbn [bind]. done_. rewrite Z.sub_0_r in R2. fin.
  - destruct (core_clear_ok k sz dbg b size cap l a R) as (b1 & a1 & E1 & K1 & R1 & N1). rewrite E1; cbn [bind].
    destruct (Z.eq_dec n 0) as [->|].
    + destruct HN as [|[_ D]]; [lia|]. unfold construct_range_with_cref. rewrite !assert_rel by exact D. cbn [bind].
      rewrite (fill_nil 0) by lia. destruct b1 as [b1|]; cbn; done_; fin.
    + destruct (cref_ok k sz dbg b1 0 cap [] a1 n x false R1) as (b2 & a2 & E2 & K2 & R2); [lia|].
      rewrite E2; cbn [bind]. done_. rewrite Z.sub_0_r in R2. fin.
Qed.

Lemma assign_range_ok b size cap l a new l' r' :
  vrep (Vec b size cap) l -> allowed k sz dbg mal (Vec b size cap) (UAssignRange new) ->
  apply (UAssignRange new) l = Some (l', r') ->
  good (Vec b size cap) a (UAssignRange new) l' r' (run_uop k sz dbg mal (Vec b size cap) a (UAssignRange new)).
Proof.
  intros R (KO & HN & F0 & F1) HA. cbn in HA. injection HA as <- <-.
  assert (KR : k <> KReloc) by (intros ->; exact KO).
  pose proof (len_nonneg l) as LN. pose proof R as (Hs & Hc & Hb & HB). cbn [run_uop].
  destruct (Z.ltb_spec cap (len new)).
  - assert (new <> []) by (intros ->; rewrite len_nil in *; lia).
    destruct (drop_ok b size cap l a (len new) R) as [[E E2]|(a1 & E & K1 & H1)]; [lia|assumption| |]; rewrite E; cbn [bind].
    + done_. split; [eauto|]. destruct b; [right; reflexivity|]. left. cbn. split; [f_equal; lia|reflexivity].
    + pose proof (vrep_new (len new) ltac:(lia) H1) as R1.
      destruct (from_iter_ok k sz dbg _ 0 (len new) [] a1 new KR H0 R1) as (b2 & a2 & E2 & K2 & R2); [lia|].
      rewrite E2; cbn [bind]. done_. fin.
  - destruct (core_clear_ok k sz dbg b size cap l a R) as (b1 & a1 & E1 & K1 & R1 & N1). rewrite E1; cbn [bind].
    destruct (Z.ltb_spec 0 (len new)).
    + assert (new <> []) by (intros ->; rewrite len_nil in *; lia).
      destruct (from_iter_ok k sz dbg b1 0 cap [] a1 new KR H1 R1) as (b2 & a2 & E2 & K2 & R2); [lia|].
      rewrite E2; cbn [bind]. done_. fin.
    + assert (new = []) by (apply len0; lia). subst new. destruct HN as [|HN]; [congruence|].
      done_. rewrite HN. fin.
Qed.

Lemma shrink_ok b size cap l a l' r' :
  vrep (Vec b size cap) l -> apply UShrink l = Some (l', r') ->
  good (Vec b size cap) a UShrink l' r' (run_uop k sz dbg mal (Vec b size cap) a UShrink).
Proof.
  intros R HA. cbn in HA. injection HA as <- <-.
  pose proof (len_nonneg l) as LN. pose proof R as (Hs & Hc & Hb & HB). cbn [run_uop].
  destruct (Z.eqb_spec size cap); [done_; fin|].
  destruct (Z.eqb_spec size 0) as [Z0|Z0].
  - destruct (core_destroy_ok k sz b size cap l a R) as (a' & E & KK & NN). rewrite E; cbn [bind]. done_.
    assert (l = []) by (apply len0; lia). subst l.
    split; [|split; [exact KK|reflexivity]]. split; [reflexivity|]. split; [lia|]. split; [unfold HALF; lia|reflexivity].
  - assert (size * sz < M64) by (pose proof (mul_pos_lt sz SZ size cap Hc); unfold HALF, M64 in *; lia).
    destruct (realloc_ok k sz dbg SZ mal MS b size cap l a size R) as [[E1 E2]|[E1 (b' & a' & E2 & V & KK)]]; try lia.
    + destruct b; [exact I|lia].
    + rewrite E2; cbn [bind]. unfold lift. done_. split; [eauto|auto].
    + rewrite E2; cbn [bind]. unfold lift. done_. fin.
Qed.

Lemma reserve_ok b size cap l a n l' r' :
  vrep (Vec b size cap) l -> allowed k sz dbg mal (Vec b size cap) (UReserve n) -> apply (UReserve n) l = Some (l', r') ->
  good (Vec b size cap) a (UReserve n) l' r' (run_uop k sz dbg mal (Vec b size cap) a (UReserve n)).
Proof.
  intros R (_ & [F0 F1] & NO) HA. cbn in HA. destruct (Z.ltb_spec n 0); [lia|]. injection HA as <- <-.
  pose proof (len_nonneg l) as LN. pose proof R as (Hs & Hc & Hb & HB). cbn [run_uop].
  destruct (Z.ltb_spec cap n); [|done_; fin].
  destruct (realloc_ok k sz dbg SZ mal MS b size cap l a n R) as [[E1 E2]|[E1 (b' & a' & E2 & V & KK)]]; try lia.
  - destruct b; [exact I|apply NO; lia].
  - rewrite E2; cbn [bind]. unfold lift. done_. split; [eauto|auto].
  - rewrite E2; cbn [bind]. unfold lift. done_. fin.
Qed.

Lemma fill_ok b size cap l a safe n new l' r' :
  vrep (Vec b size cap) l -> allowed k sz dbg mal (Vec b size cap) (UFill safe n new) -> apply (UFill safe n new) l = Some (l', r') ->
  good (Vec b size cap) a (UFill safe n new) l' r' (run_uop k sz dbg mal (Vec b size cap) a (UFill safe n new)).
Proof.
  intros R (_ & RM) HA. cbn in HA. destruct (Z.eqb_spec (len new) n) as [LN'|]; [|discriminate]. injection HA as <- <-.
  pose proof (len_nonneg new). cbn [run_uop].
  destruct (grow_ok k sz dbg SZ mal MS safe b size cap l a n R) as [[E EX]|(b' & c' & a1 & m & E & R1 & K1 & C1)];
    [lia|exact RM| |]; rewrite E; cbn [bind].
  - done_. auto.
  - destruct (client_write_ok k sz b' size c' l a1 new R1) as (b2 & a2 & E2 & K2 & R2); [lia|].
    rewrite E2; cbn [bind]. done_. fin.
Qed.

Lemma wbuf_ok b size cap l a safe new l' r' :
  vrep (Vec b size cap) l -> allowed k sz dbg mal (Vec b size cap) (UWriteBuffer safe new) ->
  apply (UWriteBuffer safe new) l = Some (l', r') ->
  good (Vec b size cap) a (UWriteBuffer safe new) l' r' (run_uop k sz dbg mal (Vec b size cap) a (UWriteBuffer safe new)).
Proof.
  intros R (_ & RM) HA. cbn in HA. injection HA as <- <-.
  pose proof (len_nonneg new). pose proof (len_nonneg l). pose proof R as (Hs & Hc & Hb & HB). cbn [run_uop].
  destruct (safe && (cap <? size + len new)) eqn:G.
  - apply andb_prop in G. destruct G as [-> G]. apply Z.ltb_lt in G.
    destruct RM as [RM|(_ & [F0 F1] & D & W & NO)]; [lia|].
    assert (CN : compute_new_capacity sz dbg cap (len new) = Ok (cap_for sz cap (len new))).
    { unfold compute_new_capacity, cap_for.
      assert (AA : assert dbg (cap <? len new) = Ok tt).
      { destruct D as [D|D]; [apply assert_ok, Z.ltb_lt; lia|apply assert_rel; exact D]. }
      rewrite AA. cbn [bind]. destruct (Z.ltb_spec (len new) (next_capacity sz cap)); f_equal; lia. }
    rewrite CN; cbn [bind].
    assert (W2 : cap_for sz cap (len new) * sz < M64).
    { destruct (next_facts sz cap SZ) as (NF1 & NF2 & _); [lia|exact Hb|]. unfold cap_for.
      destruct (Z.max_spec (next_capacity sz cap) (len new)) as [[_ ->]|[_ ->]]; assumption. }
    destruct (realloc_ok k sz dbg SZ mal MS b size cap l a (cap_for sz cap (len new)) R) as [[E1 E2]|[E1 (b' & a' & E2 & V & KK)]]; try lia.
    + exact NO.
    + rewrite E2; cbn [bind negb]. done_. split; [eauto|auto].
    + rewrite E2; cbn [bind negb].
      destruct (client_write_ok k sz _ size _ l a' new V) as (b2 & a2 & E3 & K2 & R2); [lia|].
      rewrite E3; cbn [bind]. done_. split; [exact R2|]. split; [eapply keeps_trans; eassumption|exact Hs].
  - assert (size + len new <= cap).
    { destruct RM as [RM|(-> & _)]; [lia|]. cbn in G. apply Z.ltb_ge in G. lia. }
    cbn [bind]. destruct (client_write_ok k sz b size cap l a new R) as (b2 & a2 & E3 & K2 & R2); [lia|].
    rewrite E3; cbn [bind]. done_. split; [exact R2|]. split; [assumption|exact Hs].
Qed.

Lemma vrep_nonfull b size cap l : vrep (Vec b size cap) l -> size < cap ->
  exists bf, b = Some bf /\ 0 <= size < b_len bf /\ spare k (b_at bf size).
Proof.
  intros (Hs & Hc & Hb & HB) H. pose proof (len_nonneg l). destruct b as [bf|]; [|lia].
  destruct HB as (C0 & BL & BV & BS). exists bf. split; [reflexivity|]. split; [lia|]. apply BS; lia.
Qed.

Lemma push_ok b size cap l a safe r l' r' :
  vrep (Vec b size cap) l -> allowed k sz dbg mal (Vec b size cap) (UPush safe r) -> apply (UPush safe r) l = Some (l', r') ->
  good (Vec b size cap) a (UPush safe r) l' r' (run_uop k sz dbg mal (Vec b size cap) a (UPush safe r)).
Proof.
  intros R (KO & RM) HA. cbn in HA. destruct (the_value l r) as [x|] eqn:V; [|discriminate]. injection HA as <- <-.
  assert (KR : k <> KReloc) by (intros ->; exact KO).
  pose proof R as (Hs & Hc & Hb & HB). cbn [run_uop]. unfold full.
  rewrite assert_ok by (apply Z.leb_le; lia). cbn [bind].
  destruct (Z.eqb_spec size cap) as [F|F].
  - destruct RM as [->|]; [|lia]. cbn [andb].
    destruct (emplace_back_ok k sz dbg SZ mal MS b size cap l a r x R V F) as (v' & a' & o & E & G).
    rewrite E; cbn [bind]. destruct o; done_; [|exact G]. destruct G as (_ & G1 & G2). fin.
  - rewrite andb_false_r. rewrite assert_ok by reflexivity. cbn [bind].
    destruct (vrep_nonfull b size cap l R) as (bf & -> & B1 & B2); [lia|]. cbn [need bind].
    rewrite (read_ref_ok k sz _ size cap l r x R V). cbn [bind].
    destruct (copy_value_ok k bf a size x KR B1 B2) as (a1 & E & K1). rewrite E; cbn [bind]. done_.
    split; [apply append_one; [exact R|lia]|]. split; [exact K1|reflexivity].
Qed.

Lemma pushmove_ok b size cap l a safe x l' r' :
  vrep (Vec b size cap) l -> allowed k sz dbg mal (Vec b size cap) (UPushMove safe x) -> apply (UPushMove safe x) l = Some (l', r') ->
  good (Vec b size cap) a (UPushMove safe x) l' r' (run_uop k sz dbg mal (Vec b size cap) a (UPushMove safe x)).
Proof.
  intros R (KO & RM) HA. cbn in HA. injection HA as <- <-.
  assert (KR : k <> KReloc) by (intros ->; exact KO).
  pose proof R as (Hs & Hc & Hb & HB). cbn [run_uop]. unfold full.
  rewrite assert_ok by (apply Z.leb_le; lia). cbn [bind].
  destruct (Z.eqb_spec size cap) as [F|F].
  - destruct RM as [->|]; [|lia]. cbn [andb].
    destruct (emplace_back_ok k sz dbg SZ mal MS b size cap l a (Val x) x R eq_refl F) as (v' & a' & o & E & G).
    rewrite E; cbn [bind]. destruct o; done_; [|exact G]. destruct G as (_ & G1 & G2). fin.
  - rewrite andb_false_r. rewrite assert_ok by reflexivity. cbn [bind].
    destruct (vrep_nonfull b size cap l R) as (bf & -> & B1 & B2); [lia|]. cbn [need bind].
    destruct (copy_value_ok k bf a size x KR B1 B2) as (a1 & E & K1). rewrite E; cbn [bind]. done_.
    split; [apply append_one; [exact R|lia]|]. split; [exact K1|reflexivity].
Qed.

Lemma emplaceback_ok b size cap l a safe r l' r' :
  vrep (Vec b size cap) l -> allowed k sz dbg mal (Vec b size cap) (UEmplaceBack safe r) -> apply (UEmplaceBack safe r) l = Some (l', r') ->
  good (Vec b size cap) a (UEmplaceBack safe r) l' r' (run_uop k sz dbg mal (Vec b size cap) a (UEmplaceBack safe r)).
Proof.
  intros R (KO & RM) HA. cbn in HA. destruct (the_value l r) as [x|] eqn:V; [|discriminate]. injection HA as <- <-.
  pose proof R as (Hs & Hc & Hb & HB). cbn [run_uop]. unfold full.
  rewrite assert_ok by (apply Z.leb_le; lia). cbn [bind].
  destruct (Z.eqb_spec size cap) as [F|F].
  - destruct RM as [->|]; [|lia]. cbn [andb].
    destruct (emplace_back_ok k sz dbg SZ mal MS b size cap l a r x R V F) as (v' & a' & o & E & G).
    rewrite E. exists v', a', o. split; [reflexivity|]. destruct o; [|exact G]. destruct G as (G0 & G1 & G2).
    split; [exact G1|]. split; [exact G2|exact G0].
  - rewrite andb_false_r. rewrite assert_ok by reflexivity. cbn [bind].
    destruct (vrep_nonfull b size cap l R) as (bf & -> & B1 & B2); [lia|]. cbn [need bind].
    rewrite (read_ref_ok k sz _ size cap l r x R V). cbn [bind].
    destruct (construct_ok k bf a size x B1 B2) as (a1 & E & K1). rewrite E; cbn [bind]. done_.
    split; [apply append_one; [exact R|lia]|]. split; [exact K1|exact Hs].
Qed.

Lemma clear_ok b size cap l a l' r' :
  vrep (Vec b size cap) l -> apply UClear l = Some (l', r') ->
  good (Vec b size cap) a UClear l' r' (run_uop k sz dbg mal (Vec b size cap) a UClear).
Proof.
  intros R HA. cbn in HA. injection HA as <- <-. cbn [run_uop].
  destruct (core_clear_ok k sz dbg b size cap l a R) as (b1 & a1 & E1 & K1 & R1 & N1). rewrite E1; cbn [bind]. done_. fin.
Qed.

(** Closing the gap [p, q). *)
Lemma close_ok b b1 size cap l a p q :
  vrep (Vec (Some b) size cap) l -> 0 <= p < q -> q <= size ->
  same_out b b1 p (q - p) -> (forall j, p <= j < q -> spare k (b_at b1 j)) ->
  exists b' a', move_forward k dbg b1 a p q size = Ok (b', a') /\ keeps k a a' /\
    vrep (Vec (Some b') (size - (q - p)) cap) (take p l ++ drop q l).
Proof.
  intros (Hs & Hc & Hb & C0 & BL & BV & BS) P Q [O1 O2] S.
  destruct (move_forward_ok k dbg b1 a p q size) as (b' & a' & E & KK & L & F & G & O); try lia.
  { intros j Hj. rewrite O2 by lia. eexists; apply BV; lia. } { intros; apply S; lia. }
  exists b', a'. split; [exact E|]. split; [exact KK|].
  assert (LT : len (take p l) = p) by (apply len_take; lia).
  split; [rewrite len_app, LT, len_drop; lia|]. split; [lia|]. split; [lia|]. split; [lia|]. split; [congruence|]. split.
  - intros j Hj. destruct (Z.lt_ge_cases j p).
    + rewrite O, O2 by lia. rewrite zn_app1, zn_take by lia. apply BV; lia.
    + rewrite F, O2 by lia. rewrite zn_app2, LT, zn_drop by lia. rewrite BV by lia. do 2 f_equal. lia.
  - intros j Hj. destruct (Z.lt_ge_cases j q) as [A|A].
    + destruct (Z.lt_ge_cases j (p + (size - q))); [lia|]. rewrite O by lia. apply S; lia.
    + destruct (Z.lt_ge_cases j size).
      * apply G; lia.
      * rewrite O, O2 by lia. apply BS; lia.
Qed.

Lemma erase1_ok b size cap l a p l' r' :
  vrep (Vec b size cap) l -> apply (UErase p) l = Some (l', r') ->
  good (Vec b size cap) a (UErase p) l' r' (run_uop k sz dbg mal (Vec b size cap) a (UErase p)).
Proof.
  intros R HA. cbn [apply] in HA. destruct ((0 <=? p) && (p <? len l)) eqn:P; [|discriminate]. injection HA as <- <-.
  pose proof R as (Hs & Hc & Hb & HB). cbn [run_uop]. rewrite Hs. rewrite assert_ok by exact P. cbn [bind].
  apply andb_prop in P. destruct P as [P1 P2]. apply Z.leb_le in P1. apply Z.ltb_lt in P2.
  destruct b as [b|]; [|lia]. cbn [need bind]. pose proof HB as (C0 & BL & BV & BS).
  destruct (kill_ok k b a p (zn l p)) as (b1 & a1 & E & K1 & S1 & L1 & O1); [lia|apply BV; lia|].
  rewrite E; cbn [bind].
  destruct (close_ok b b1 size cap l a1 p (p + 1) R) as (b2 & a2 & E2 & K2 & R2); try lia.
  { split; [exact L1|]. intros; apply O1; lia. } { intros j Hj. replace j with p by lia. exact S1. }
  rewrite Hs in *. rewrite E2; cbn [bind]. done_. replace (len l - (p + 1 - p)) with (len l - 1) in R2 by lia. fin.
Qed.

Lemma eraserange_ok b size cap l a p q l' r' :
  vrep (Vec b size cap) l -> apply (UEraseRange p q) l = Some (l', r') ->
  good (Vec b size cap) a (UEraseRange p q) l' r' (run_uop k sz dbg mal (Vec b size cap) a (UEraseRange p q)).
Proof.
  intros R HA. cbn [apply] in HA. destruct ((0 <=? p) && (p <=? q) && (q <=? len l)) eqn:P; [|discriminate]. injection HA as <- <-.
  apply andb_prop in P. destruct P as [P P3]. apply andb_prop in P. destruct P as [P1 P2].
  apply Z.leb_le in P1, P2, P3.
  pose proof R as (Hs & Hc & Hb & HB). cbn [run_uop].
  rewrite assert_ok by (destruct (Z.leb_spec 0 p), (Z.leb_spec q size); cbn; reflexivity || lia). cbn [bind].
  rewrite assert_ok by (apply Z.leb_le; lia). cbn [bind].
  destruct (Z.eqb_spec p q) as [->|N].
  - done_. split; [|split; [apply keeps_refl|split; reflexivity]].
    unfold take, drop. rewrite firstn_skipn. exact R.
  - destruct b as [b|]; [|lia]. cbn [need bind]. pose proof HB as (C0 & BL & BV & BS).
    destruct (destroy_range_ok k (Z.to_nat (q - p)) b a p) as (b1 & a1 & E & K1 & O & F); try lia.
    { intros j Hj; eexists; apply BV; lia. }
    rewrite Z2Nat.id in * by lia. rewrite E; cbn [bind].
    destruct (close_ok b b1 size cap l a1 p q R) as (b2 & a2 & E2 & K2 & R2); try lia; auto.
    { intros; apply F; lia. }
    rewrite E2; cbn [bind]. done_. split; [exact R2|]. split; [eapply keeps_trans; eassumption|split; reflexivity].
Qed.

Lemma len_filter p l : len (filter p l) <= len l.
Proof. unfold len. induction l as [|x l IH]; [cbn; lia|]. cbn [filter]. destruct (p x); cbn [length]; lia. Qed.

Lemma erase_if_gen b size cap l a test p (u : uop) :
  (forall b v, test b v = Ok (p v)) -> (forall r r', ret_ok u r r' <-> r = r') ->
  vrep (Vec b size cap) l ->
  let l' := filter (fun v => negb (p v)) l in
  good (Vec b size cap) a u l' (len l - len l')
    (match b with
          | None => if 0 <? size then Undef else Ok (Vec b size cap, a, Done 0)
          | Some bf =>
              do (b1, a1, n) <- erase_loop k test bf a 0 0 0 (Z.to_nat size);
              Ok (Vec (Some b1) (size - n) cap, a1, Done n)
          end).
Proof.
  intros HT RO R l'. pose proof R as (Hs & Hc & Hb & HB). pose proof (len_nonneg l) as LN.
  pose proof (len_filter (fun v => negb (p v)) l) as LF. pose proof (len_nonneg l') as LN'.
  destruct b as [b|].
  - pose proof HB as (C0 & BL & BV & BS).
    destruct (erase_loop_ok k test p HT l b a 0 0 0) as (b' & a' & E & KK & L & F & G & O); try lia.
    { intros j Hj. rewrite Z.sub_0_r. apply BV; lia. }
    fold l' in E, F, G, O |- *. fold l' in LF.
    replace (Z.to_nat size) with (length l) by (unfold len in Hs; lia). rewrite E; cbn [bind]. done_.
    split; [|split; [exact KK|apply RO; reflexivity]].
    split; [lia|]. split; [lia|]. split; [lia|]. split; [lia|]. split; [lia|]. split.
    + intros j Hj. rewrite F by lia. rewrite Z.sub_0_r. reflexivity.
    + intros j Hj. destruct (Z.lt_ge_cases j (len l)); [apply G; lia|]. rewrite O by lia. apply BS; lia.
  - assert (l = []) by (apply len0; lia). subst l. rewrite len_nil in *. rewrite Hs. done_. rewrite Hs in R.
    split; [exact R|]. split; [apply keeps_refl|]. apply RO. reflexivity.
Qed.

Lemma pop_ok b size cap l a l' r' :
  vrep (Vec b size cap) l -> apply UPop l = Some (l', r') ->
  good (Vec b size cap) a UPop l' r' (run_uop k sz dbg mal (Vec b size cap) a UPop).
Proof.
  intros R HA. cbn [apply] in HA. destruct (Z.ltb_spec 0 (len l)) as [P|]; [|discriminate]. injection HA as <- <-.
  pose proof R as (Hs & Hc & Hb & HB). cbn [run_uop].
  destruct (Z.eqb_spec size 0); [lia|]. destruct b as [b|]; [|lia]. cbn [need bind]. pose proof HB as (C0 & BL & BV & BS).
  destruct (kill_ok k b a (size - 1) (zn l (size - 1))) as (b1 & a1 & E & K1 & S1 & L1 & O1); [lia|apply BV; lia|].
  rewrite E; cbn [bind]. done_. split; [|split; [exact K1|reflexivity]].
  split; [rewrite len_take; lia|]. split; [lia|]. split; [lia|]. split; [lia|]. split; [lia|]. split.
  - intros j Hj. rewrite O1 by lia. rewrite zn_take by lia. apply BV; lia.
  - intros j Hj. destruct (Z.eq_dec j (size - 1)) as [->|]; [exact S1|]. rewrite O1 by lia. apply BS; lia.
Qed.

Lemma set_ok b size cap l a p r l' r' :
  vrep (Vec b size cap) l -> apply (USet p r) l = Some (l', r') ->
  good (Vec b size cap) a (USet p r) l' r' (run_uop k sz dbg mal (Vec b size cap) a (USet p r)).
Proof.
  intros R HA. cbn [apply] in HA. destruct (Z.leb_spec 0 p) as [P|], (Z.ltb_spec p (len l)) as [Q|]; cbn [andb] in HA; try discriminate.
  destruct (the_value l r) as [x|] eqn:V; [|discriminate]. injection HA as <- <-.
  pose proof R as (Hs & Hc & Hb & HB). cbn [run_uop].
  rewrite assert_ok by (apply andb_true_intro; split; [apply Z.leb_le|apply Z.ltb_lt]; lia). cbn [bind].
  destruct b as [b|]; [|lia]. cbn [need bind]. pose proof HB as (C0 & BL & BV & BS).
  assert (E : read_ref (Some b) r = Ok x).
  { destruct r as [y|i]; cbn in V |- *; [congruence|]. pose proof V as V1. apply at_inv in V. destruct V as [V ->].
    unfold read. rewrite get_ok by lia. cbn [bind]. rewrite BV by lia. reflexivity. }
  rewrite E; cbn [bind].
  assert (ST : store k b p x = Ok (set b p (Live x))).
  { unfold store. rewrite get_ok by lia. cbn [bind]. rewrite BV by lia. destruct k; reflexivity. }
  rewrite ST; cbn [bind]. done_. split; [|split; [apply keeps_refl|reflexivity]].
  assert (LL : len (take p l ++ x :: drop (p + 1) l) = len l).
  { unfold len, take, drop in *. rewrite app_length. cbn [length]. rewrite firstn_length, skipn_length. lia. }
  split; [lia|]. split; [lia|]. split; [lia|]. split; [lia|]. split; [exact BL|]. split.
  - intros j Hj. cbn [set b_at]. destruct (Z.eqb_spec j p) as [->|NE].
    + unfold zn. f_equal. unfold take. rewrite app_nth2; rewrite firstn_length; unfold len in *; [|lia].
      replace (Z.to_nat p - Nat.min (Z.to_nat p) (length l))%nat with O by lia. reflexivity.
    + rewrite BV by lia. f_equal. unfold zn, take, drop, len in *.
      destruct (Z.lt_ge_cases j p).
      * rewrite app_nth1 by (rewrite firstn_length; lia). rewrite nth_firstn' by lia. reflexivity.
      * rewrite app_nth2 by (rewrite firstn_length; lia). rewrite firstn_length.
        replace (Z.to_nat j - Nat.min (Z.to_nat p) (length l))%nat with (S (Z.to_nat j - Z.to_nat p - 1)) by lia.
        cbn [nth]. rewrite nth_skipn'. f_equal; lia.
  - intros j Hj. cbn [set b_at]. destruct (Z.eqb_spec j p); [lia|]. apply BS; lia.
Qed.

Lemma grow_exact b size cap l a n :
  vrep (Vec b size cap) l -> size < n -> fits sz n -> (cap < n -> null_ok sz mal b n) ->
  ((if cap <? n then realloc_with_old_data k sz dbg mal b size cap a n else Ok (Vec b size cap, a, true)) =
     Ok (Vec b size cap, a, false) /\ exists x, mal x = false) \/
  (exists b' c' a', (if cap <? n then realloc_with_old_data k sz dbg mal b size cap a n else Ok (Vec b size cap, a, true)) =
     Ok (Vec b' size c', a', true) /\ vrep (Vec b' size c') l /\ keeps k a a' /\ n <= c').
Proof.
  intros R N [F0 F1] NO. pose proof R as (Hs & Hc & Hb & HB). pose proof (len_nonneg l).
  destruct (Z.ltb_spec cap n).
  - destruct (realloc_ok k sz dbg SZ mal MS b size cap l a n R) as [[E1 E2]|[E1 (b' & a' & E2 & V & KK)]]; try lia.
    + destruct b; [exact I|apply NO; lia].
    + left. rewrite E2. eauto.
    + right. rewrite E2. eexists; eexists; eexists; split; [reflexivity|]. split; [exact V|]. split; [exact KK|lia].
  - right. eexists; eexists; eexists; split; [reflexivity|]. split; [exact R|]. split; [apply keeps_refl|lia].
Qed.

Lemma truncate_ok b size cap l a n u l' :
  vrep (Vec b size cap) l -> 0 <= n <= size -> l' = take n l -> (forall r r', ret_ok u r r' <-> r = r') ->
  good (Vec b size cap) a u l' 0
    (match b with
            | None => if n <? size then Undef else Ok (Vec b size cap, a, Done 0)
            | Some bf => do (b1, a1) <- destroy_range k bf a n (Z.to_nat (size - n)); Ok (Vec (Some b1) n cap, a1, Done 0)
            end).
Proof.
  intros R N -> RO. pose proof R as (Hs & Hc & Hb & HB). destruct b as [b|].
  - pose proof HB as (C0 & BL & BV & BS).
    destruct (destroy_range_ok k (Z.to_nat (size - n)) b a n) as (b1 & a1 & E & K1 & [O1 O2] & F); try lia.
    { intros j Hj; eexists; apply BV; lia. }
    rewrite Z2Nat.id in * by lia. rewrite E; cbn [bind]. done_. split; [|split; [exact K1|apply RO; reflexivity]].
    split; [rewrite len_take; lia|]. split; [lia|]. split; [lia|]. split; [lia|]. split; [lia|]. split.
    + intros j Hj. rewrite O2 by lia. rewrite zn_take by lia. apply BV; lia.
    + intros j Hj. destruct (Z.lt_ge_cases j size); [apply F; lia|]. rewrite O2 by lia. apply BS; lia.
  - destruct (Z.ltb_spec n size); [lia|]. done_. rewrite take_all by lia.
    split; [exact R|]. split; [apply keeps_refl|apply RO; reflexivity].
Qed.

Lemma resize_gen b size cap l a n x d u :
  vrep (Vec b size cap) l -> fits sz n -> (cap < n -> null_ok sz mal b n) -> (forall r r', ret_ok u r r' <-> r = r') ->
  good (Vec b size cap) a u (take n l ++ fill_with (n - len l) x) 0
   (if size <? n then
            do (v1, a1, ok) <- (if cap <? n then realloc_with_old_data k sz dbg mal b size cap a n else Ok (Vec b size cap, a, true));
            if negb ok then Ok (v1, a1, Threw) else
            match v1 with
            | Broken => Undef
            | Vec b1 s1 c1 => do (b2, a2) <- construct_range_with_cref k dbg b1 a1 s1 n (Val x) d; Ok (Vec b2 n c1, a2, Done 0)
            end
          else
            match b with
            | None => if n <? size then Undef else Ok (Vec b size cap, a, Done 0)
            | Some bf => do (b1, a1) <- destroy_range k bf a n (Z.to_nat (size - n)); Ok (Vec (Some b1) n cap, a1, Done 0)
            end).
Proof.
  intros R F NO RO. pose proof R as (Hs & Hc & Hb & HB). pose proof F as [F0 F1]. pose proof (len_nonneg l).
  destruct (Z.ltb_spec size n).
  - destruct (grow_exact b size cap l a n R H0 F NO) as [[E EX]|(b' & c' & a1 & E & R1 & K1 & C1)]; rewrite E; cbn [bind negb].
    + done_. auto.
    + destruct (cref_ok k sz dbg b' size c' l a1 n x d R1) as (b2 & a2 & E2 & K2 & R2); [lia|].
      rewrite E2; cbn [bind]. done_. rewrite take_all by lia. rewrite <- Hs.
      split; [exact R2|]. split; [eapply keeps_trans; eassumption|apply RO; reflexivity].
  - rewrite fill_nil by lia. rewrite app_nil_r. apply truncate_ok with (l := l); auto.
Qed.

Lemma insertn_ok b size cap l a safe p n x l' r' :
  vrep (Vec b size cap) l -> allowed k sz dbg mal (Vec b size cap) (UInsertN safe p n (Val x)) ->
  apply (UInsertN safe p n (Val x)) l = Some (l', r') ->
  good (Vec b size cap) a (UInsertN safe p n (Val x)) l' r' (run_uop k sz dbg mal (Vec b size cap) a (UInsertN safe p n (Val x))).
Proof.
  intros R (KO & _ & RM) HA. assert (KR : k <> KReloc) by (intros ->; exact KO).
  cbn [apply the_value] in HA. destruct ((0 <=? p) && (p <=? len l) && (0 <? n)) eqn:P; [|discriminate]. injection HA as <- <-.
  apply andb_prop in P. destruct P as [P P3]. apply andb_prop in P. destruct P as [P1 P2].
  apply Z.leb_le in P1, P2. apply Z.ltb_lt in P3.
  pose proof R as (Hs & Hc & Hb & HB). cbn [run_uop].
  rewrite assert_ok by (apply Z.ltb_lt; lia). cbn [bind].
  rewrite assert_ok by (destruct (Z.leb_spec 0 p), (Z.leb_spec p size); cbn; reflexivity || lia). cbn [bind].
  destruct (grow_ok k sz dbg SZ mal MS safe b size cap l a n R) as [[E EX]|(b' & c' & a1 & m & E & R1 & K1 & C1)];
    [lia|exact RM| |]; rewrite E; cbn [bind].
  - done_. auto.
  - pose proof R1 as (_ & Hc1 & Hb1 & HB1). destruct b' as [b'|]; [|lia]. pose proof HB1 as (C0 & BL & BV & BS).
    assert (size + n < M64) by (apply (sz_word sz SZ); [lia|]; pose proof (mul_pos_lt sz SZ (size + n) c' C1); unfold HALF, M64 in *; lia).
    unfold add64. rewrite Z.mod_small by lia. rewrite assert_ok by (apply Z.leb_le; lia). cbn [bind need].
    destruct (Z.ltb_spec (b_len b') (p + n)); [lia|].
    destruct (open_gap_ok k dbg b' a1 p n size KR) as (b2 & a2 & EG & K2 & M); try lia.
    { intros j Hj; eexists; apply BV; lia. } { intros; apply BS; lia. }
    rewrite EG; cbn [bind]. unfold construct_range_with_cref.
    rewrite assert_ok by reflexivity. cbn [bind]. rewrite assert_ok by (apply Z.ltb_lt; lia). cbn [bind].
    destruct (fill_loop_ok k x (Z.to_nat (p + n - p)) b2 a2 p) with (d := m) as (b3 & a3 & EF & K3 & O & F).
    { lia. } { destruct M as [L _]; lia. }
    { intros j Hj. eapply (gap_spare k sz b' b2 size c' l p n R1); lia || exact M. }
    rewrite EF; cbn [bind]. rewrite Z2Nat.id in * by lia. replace (p + n - p) with n in * by lia. done_.
    assert (LF : len (fill_with n x) = n) by (apply len_fill; lia).
    split; [|split; [eapply keeps_trans; [exact K1|eapply keeps_trans; eassumption]|reflexivity]].
    rewrite <- LF at 1.
    apply (vrep_gap k sz b' b2 b3 size c' l p (fill_with n x) R1); rewrite ?LF; try lia; auto.
    intros j Hj. rewrite F by lia. rewrite zn_fill by lia. reflexivity.
Qed.

Lemma insertrange_ok b size cap l a safe p new l' r' :
  vrep (Vec b size cap) l -> allowed k sz dbg mal (Vec b size cap) (UInsertRange safe p new) ->
  apply (UInsertRange safe p new) l = Some (l', r') ->
  good (Vec b size cap) a (UInsertRange safe p new) l' r' (run_uop k sz dbg mal (Vec b size cap) a (UInsertRange safe p new)).
Proof.
  intros R (KO & RM) HA. assert (KR : k <> KReloc) by (intros ->; exact KO).
  cbn [apply] in HA. destruct ((0 <=? p) && (p <=? len l)) eqn:P; [|discriminate]. injection HA as <- <-.
  apply andb_prop in P. destruct P as [P1 P2]. apply Z.leb_le in P1, P2.
  pose proof R as (Hs & Hc & Hb & HB). pose proof (len_nonneg new) as NN. cbn [run_uop].
  destruct (Z.eqb_spec (len new) 0) as [Z0|Z0].
  { apply len0 in Z0. subst new. done_. cbn [app]. unfold take, drop. rewrite firstn_skipn. fin. }
  assert (NE : new <> []) by (intros ->; apply Z0; reflexivity).
  destruct (grow_ok k sz dbg SZ mal MS safe b size cap l a (len new) R) as [[E EX]|(b' & c' & a1 & m & E & R1 & K1 & C1)];
    [lia|exact RM| |]; rewrite E; cbn [bind].
  - done_. auto.
  - pose proof R1 as (_ & Hc1 & Hb1 & HB1). destruct b' as [b'|]; [|lia]. pose proof HB1 as (C0 & BL & BV & BS).
    assert (size + len new < M64) by (apply (sz_word sz SZ); [lia|]; pose proof (mul_pos_lt sz SZ (size + len new) c' C1); unfold HALF, M64 in *; lia).
    unfold add64. rewrite Z.mod_small by lia. rewrite assert_ok by (apply Z.leb_le; lia). cbn [bind need].
    destruct (Z.ltb_spec (b_len b') (p + len new)); [lia|].
    destruct (open_gap_ok k dbg b' a1 p (len new) size KR) as (b2 & a2 & EG & K2 & M); try lia.
    { intros j Hj; eexists; apply BV; lia. } { intros; apply BS; lia. }
    rewrite EG; cbn [bind]. unfold copy_from_iterator.
    rewrite assert_ok by reflexivity. cbn [bind]. rewrite assert_ok by (destruct new; [congruence|reflexivity]). cbn [bind].
    destruct (write_list_ok k new b2 a2 p) as (b3 & a3 & EF & K3 & O & F).
    { lia. } { destruct M as [L _]; lia. }
    { intros j Hj. eapply (gap_spare k sz b' b2 size c' l p (len new) R1); lia || exact M. }
    assert (X : (match k, new with
      | KReloc, _ :: _ => Undef
      | _, _ => do (b1, a1) <- write_list k b2 a2 p new; Ok (Some b1, a1)
      end) = Ok (Some b3, a3)) by (destruct k; try congruence; rewrite EF; reflexivity).
    rewrite X; cbn [bind]. done_.
    split; [|split; [eapply keeps_trans; [exact K1|eapply keeps_trans; eassumption]|reflexivity]].
    apply (vrep_gap k sz b' b2 b3 size c' l p new R1); try lia; auto.
Qed.

Theorem run_uop_ok v l a o l' r' :
  vrep v l -> allowed k sz dbg mal v o -> apply o l = Some (l', r') ->
  good v a o l' r' (run_uop k sz dbg mal v a o).
Proof.
  intros R AL HA. destruct v as [b size cap|]; [|contradiction]. pose proof R as (Hs & Hc & Hb & HB).
  pose proof (len_nonneg l) as LN.
  assert (RO : forall u, match u with UEraseRange _ _ => False | _ => True end -> forall r r', ret_ok u r r' <-> r = r').
  { intros u; destruct u; cbn; tauto. }
  destruct o as [n r|new| |n|safe n new|safe new|safe r|safe x|safe r| |p|p q|r|pr| |p r|n|new|n r|safe p r|safe p x|safe p n r|safe p new|safe p r].
  - destruct r as [x|i]; [|destruct AL as (_ & [] & _)]. eapply assign_n_ok; eassumption.
  - eapply assign_range_ok; eassumption.
  - eapply shrink_ok; eassumption.
  - eapply reserve_ok; eassumption.
  - eapply fill_ok; eassumption.
  - eapply wbuf_ok; eassumption.
  - eapply push_ok; eassumption.
  - eapply pushmove_ok; eassumption.
  - eapply emplaceback_ok; eassumption.
  - eapply clear_ok; eassumption.
  - eapply erase1_ok; eassumption.
  - eapply eraserange_ok; eassumption.
  - destruct r as [x|i]; [|destruct AL as (_ & [])].
    cbn [apply the_value] in HA. injection HA as <- <-. cbn [run_uop].
    apply (erase_if_gen b size cap l a _ (fun v => v =? x)); [reflexivity|apply RO; exact I|exact R].
  - cbn [apply] in HA. injection HA as <- <-. cbn [run_uop].
    apply (erase_if_gen b size cap l a _ pr); [reflexivity|apply RO; exact I|exact R].
  - eapply pop_ok; eassumption.
  - eapply set_ok; eassumption.
  - destruct AL as (_ & F & NO). cbn [apply] in HA. destruct (Z.ltb_spec n 0); [discriminate|]. injection HA as <- <-.
    cbn [run_uop]. apply resize_gen; auto.
  - destruct AL as (_ & F & NO). cbn [apply] in HA. injection HA as <- <-. cbn [run_uop]. pose proof (len_nonneg new).
    destruct (Z.ltb_spec size (size + len new)).
    + destruct (grow_exact b size cap l a (size + len new) R H0 F NO) as [[E EX]|(b' & c' & a1 & E & R1 & K1 & C1)]; rewrite E; cbn [bind negb].
      * done_. auto.
      * destruct (client_write_ok k sz b' size c' l a1 new R1) as (b2 & a2 & E2 & K2 & R2); [lia|].
        rewrite E2; cbn [bind]. done_. fin.
    + assert (new = []) by (apply len0; lia). subst new. rewrite app_nil_r. done_. fin.
  - destruct AL as (_ & V & F & NO). destruct r as [x|]; [|contradiction]. cbn [apply the_value] in HA.
    destruct (Z.ltb_spec n 0); [discriminate|]. injection HA as <- <-.
    cbn [run_uop]. apply resize_gen; auto.
  - destruct AL as (KO & V & A). destruct r as [x|]; [|contradiction]. assert (KR : k <> KReloc) by (intros ->; exact KO).
    cbn [apply the_value] in HA. destruct ((0 <=? p) && (p <=? len l)) eqn:P; [|discriminate]. injection HA as <- <-.
    cbn [run_uop]. rewrite assert_ok by (rewrite Hs; exact P). cbn [bind read_ref].
    apply andb_prop in P. destruct P as [P1 P2]. apply Z.leb_le in P1, P2.
    apply (insert1_ok k sz dbg SZ mal MS b size cap l a safe p x (copy_value k)); auto; try lia; try (apply RO; exact I).
    intros; apply copy_value_ok; assumption.
  - destruct AL as (KO & A). assert (KR : k <> KReloc) by (intros ->; exact KO).
    cbn [apply the_value] in HA. destruct ((0 <=? p) && (p <=? len l)) eqn:P; [|discriminate]. injection HA as <- <-.
    cbn [run_uop]. rewrite assert_ok by (rewrite Hs; exact P). cbn [bind read_ref].
    apply andb_prop in P. destruct P as [P1 P2]. apply Z.leb_le in P1, P2.
    apply (insert1_ok k sz dbg SZ mal MS b size cap l a safe p x (copy_value k)); auto; try lia; try (apply RO; exact I).
    intros; apply copy_value_ok; assumption.
  - destruct r as [x|i]; [|destruct AL as (_ & [] & _)]. eapply insertn_ok; eassumption.
  - eapply insertrange_ok; eassumption.
  - destruct AL as (KO & V & A). destruct r as [x|]; [|contradiction]. assert (KR : k <> KReloc) by (intros ->; exact KO).
    cbn [apply the_value] in HA. destruct ((0 <=? p) && (p <=? len l)) eqn:P; [|discriminate]. injection HA as <- <-.
    cbn [run_uop read_ref bind].
    apply andb_prop in P. destruct P as [P1 P2]. apply Z.leb_le in P1, P2.
    apply (insert1_ok k sz dbg SZ mal MS b size cap l a safe p x (construct k)); auto; try lia; try (apply RO; exact I).
    intros; apply construct_ok; assumption.
Qed.
End K.
