(** stdb_vector: every allowed operation on one vector acts as on sequences. *)
Require Import ZArith List Bool Lia.
From Verif Require Import Base BaseProofs VecSpec VecModel VecStatements VecProofs.
Import ListNotations.
Open Scope Z_scope.

Definition ret_ok (o : uop) (r r' : Z) : Prop :=
  match o with UEraseRange a b => r = b /\ r' = a | _ => r = r' end.

(** next_capacity *)
Lemma init_pos sz : size_ok sz -> 0 < init_capacity sz.
Proof.
  intros [H1 H2]. unfold init_capacity. destruct (Z.leb_spec 64 sz); [lia|].
  apply Z.div_str_pos; lia.
Qed.
Lemma init_le sz : size_ok sz -> init_capacity sz <= 131072 / sz /\ init_capacity sz * sz <= 131072.
Proof.
  intros [H1 H2]. assert (I : init_capacity sz * sz <= 131072).
  { unfold init_capacity. destruct (Z.leb_spec 64 sz); [lia|].
    pose proof (Z.mul_div_le 64 sz H1). lia. }
  split; [|exact I]. apply Z.div_le_lower_bound; lia.
Qed.
Lemma next_facts sz cap : size_ok sz -> 0 <= cap -> cap * sz < HALF ->
  let n := next_capacity sz cap in
  cap < n /\ n * sz < M64 /\ (init_capacity sz <= cap -> 3 * cap <= 2 * n) /\ n <= Z.max (init_capacity sz) (2 * cap).
Proof.
  intros S C H. pose proof (init_pos sz S) as IP. destruct (init_le sz S) as [IL IB].
  destruct S as [S1 S2]. unfold HALF in *.
  pose proof (Z.mul_div_le 131072 sz S1) as DL. pose proof (Z.div_str_pos 131072 sz ltac:(lia)) as DP.
  assert (CB : cap <= cap * sz) by nia.
  cbn zeta. unfold next_capacity.
  destruct (Z.ltb_spec cap (131072 / sz)) as [L|L]; destruct (Z.leb_spec (init_capacity sz) cap) as [I|I]; cbn [andb].
  - assert (cap * sz <= 131072) by nia.
    unfold add64, mul64. rewrite (Z.mod_small (cap * 3)) by (unfold M64; nia).
    rewrite Z.mod_small by (unfold M64; nia).
    pose proof (Z.div_mod (cap * 3 + 1) 2 ltac:(lia)). pose proof (Z.mod_pos_bound (cap * 3 + 1) 2 ltac:(lia)).
    remember ((cap * 3 + 1) / 2) as q. assert (q <= 2 * cap) by lia. assert (3 * cap <= 2 * q) by lia.
    split; [lia|]. split; [unfold M64; nia|]. split; lia.
  - destruct (Z.leb_spec (131072 / sz) cap); [lia|]. split; [lia|]. split; [unfold M64; lia|]. split; lia.
  - destruct (Z.leb_spec (131072 / sz) cap); [|lia].
    unfold mul64. rewrite Z.mod_small by (unfold M64; lia). split; [lia|]. split; [unfold M64; nia|]. split; lia.
  - lia.
Qed.

Section K.
Variable k : kind.
Variable sz : Z.
Variable dbg : bool.
Hypothesis SZ : size_ok sz.

Definition vrep (v : vec) (l : list Z) : Prop :=
  match v with
  | Broken => False
  | Vec b size cap =>
      size = len l /\ size <= cap /\ cap * sz < HALF /\
      match b with
      | None => cap = 0
      | Some bf => 0 < cap /\ b_len bf = cap /\
                   (forall j, 0 <= j < size -> b_at bf j = Live (zn l j)) /\
                   (forall j, size <= j < cap -> spare k (b_at bf j))
      end
  end.

Section M.
Variable mal : Z -> bool.
Hypothesis MS : malloc_sane mal.

Lemma malloc_ok n : 0 <= n -> n * sz < M64 ->
  (malloc sz mal n = None /\ mal (n * sz) = false) \/
  (malloc sz mal n = Some {| b_len := n; b_at := fun _ => Raw |} /\ mal (n * sz) = true /\ n * sz < HALF).
Proof.
  intros H0 H. destruct SZ as [S1 S2]. unfold malloc. unfold mul64. rewrite Z.mod_small by nia.
  destruct (mal (n * sz)) eqn:E; [right|left; auto]. rewrite Z.div_mul by lia. auto.
Qed.

Lemma vrep_live b size cap l : vrep (Vec (Some b) size cap) l ->
  forall j, 0 <= j < size -> exists v, b_at b j = Live v.
Proof. intros (_ & _ & _ & _ & _ & H & _) j Hj; eauto. Qed.

(** Replacing the buffer. *)
Lemma realloc_ok b size cap l a n :
  vrep (Vec b size cap) l -> 0 < n -> size <= n -> n * sz < M64 ->
  (match b with None => mal (n * sz) = true | Some _ => True end) ->
  (mal (n * sz) = false /\ realloc_with_old_data k sz dbg mal b size cap a n = Ok (Vec b size cap, a, false)) \/
  (mal (n * sz) = true /\ exists b' a', realloc_with_old_data k sz dbg mal b size cap a n = Ok (Vec (Some b') size n, a', true) /\
    vrep (Vec (Some b') size n) l /\ keeps k a a').
Proof.
  intros R N0 N1 N2 NO. pose proof (len_nonneg l) as LN. destruct R as (Hs & Hc & Hb & HB).
  unfold realloc_with_old_data, realloc_with_move.
  rewrite assert_ok by (apply Z.leb_le; lia). cbn [bind].
  destruct (malloc_ok n) as [[E1 E2]|[E1 [E2 E3]]]; [lia|lia| |].
  - destruct b as [b|]; [|congruence]. left. split; [exact E2|].
    rewrite assert_ok by (apply Z.ltb_lt; lia). cbn [bind]. rewrite E1. reflexivity.
  - right. split; [exact E2|]. destruct b as [b|].
    + destruct HB as (C0 & BL & BV & BS).
      rewrite assert_ok by (apply Z.ltb_lt; lia). cbn [bind]. rewrite E1.
      rewrite Z.min_l by lia.
      destruct (move_wo_ok k b {| b_len := n; b_at := fun _ => Raw |} a size) as (s' & d' & a' & E & KK & O & O' & F & G).
      * lia.
      * lia.
      * cbn; lia.
      * intros j Hj; eauto.
      * intros; apply spare_raw.
      * rewrite E; cbn [bind]. eexists; eexists; split; [reflexivity|]. destruct O as [O1 O2], O' as [O1' O2']. cbn in O1', O2'.
        split.
        -- split; [exact Hs|]. split; [lia|]. split; [lia|]. split; [lia|]. split; [exact O1'|]. split.
           ++ intros j Hj. rewrite F by lia. apply BV; lia.
           ++ intros j Hj. rewrite O2' by lia. apply spare_raw.
        -- eapply keeps_trans; [exact KK|]. apply free_ok. intros j Hj.
           destruct (Z.lt_ge_cases j size); [apply G; lia|]. rewrite O2 by lia. apply BS; lia.
    + assert (size = 0) by lia. subst size. rewrite assert_ok by (apply Z.eqb_eq; lia). cbn [bind]. rewrite E1.
      eexists; eexists; split; [rewrite H; reflexivity|]. split; [|apply keeps_refl].
      split; [lia|]. split; [lia|]. split; [lia|]. split; [lia|]. split; [reflexivity|]. split; [intros; lia|].
      intros; apply spare_raw.
Qed.

(** Destroying everything. *)
Lemma core_clear_ok b size cap l a : vrep (Vec b size cap) l ->
  exists b' a', core_clear k dbg b size cap a = Ok (b', a') /\ keeps k a a' /\ vrep (Vec b' 0 cap) [] /\
    (b' = None <-> b = None).
Proof.
  intros (Hs & Hc & Hb & HB). pose proof (len_nonneg l) as LN. unfold core_clear.
  rewrite assert_ok by (apply Z.leb_le; lia). cbn [bind]. destruct b as [b|].
  - destruct HB as (C0 & BL & BV & BS).
    destruct (destroy_range_ok k (Z.to_nat size) b a 0) as (b' & a' & E & KK & [O1 O2] & F); try lia.
    { intros j Hj; eexists; apply BV; lia. }
    rewrite Z2Nat.id in * by lia. rewrite E; cbn [bind]. exists (Some b'), a'. split; [reflexivity|]. split; [exact KK|].
    split; [|split; discriminate]. split; [reflexivity|]. split; [lia|]. split; [lia|]. split; [lia|]. split; [lia|].
    split; [intros; lia|]. intros j Hj. destruct (Z.lt_ge_cases j size); [apply F; lia|]. rewrite O2 by lia. apply BS; lia.
  - assert (size = 0) by lia. rewrite H.
    exists None, a. split; [destruct k; reflexivity|]. split; [apply keeps_refl|]. split; [|tauto].
    split; [reflexivity|]. split; [lia|]. split; [lia|exact HB].
Qed.

Lemma core_destroy_ok b size cap l a : vrep (Vec b size cap) l ->
  exists a', core_destroy k b size a = Ok a' /\ keeps k a a' /\ (b = None -> a' = a).
Proof.
  intros (Hs & Hc & Hb & HB). pose proof (len_nonneg l) as LN. unfold core_destroy. destruct b as [b|].
  - destruct HB as (C0 & BL & BV & BS).
    destruct (destroy_range_ok k (Z.to_nat size) b a 0) as (b' & a' & E & KK & [O1 O2] & F); try lia.
    { intros j Hj; eexists; apply BV; lia. }
    rewrite Z2Nat.id in * by lia. rewrite E; cbn [bind]. eexists; split; [reflexivity|]. split; [|discriminate].
    eapply keeps_trans; [exact KK|]. apply free_ok. intros j Hj.
    destruct (Z.lt_ge_cases j size); [apply F; lia|]. rewrite O2 by lia. apply BS; lia.
  - assert (size = 0) by lia. rewrite H. exists a. split; [destruct k; reflexivity|]. split; [apply keeps_refl|auto].
Qed.

(** New elements at the end. *)
Lemma vrep_extend b b' size cap l new :
  vrep (Vec (Some b) size cap) l -> same_out b b' size (len new) -> size + len new <= cap ->
  (forall j, size <= j < size + len new -> b_at b' j = Live (zn new (j - size))) ->
  vrep (Vec (Some b') (size + len new) cap) (l ++ new).
Proof.
  intros (Hs & Hc & Hb & C0 & BL & BV & BS) [O1 O2] R F. pose proof (len_nonneg l). pose proof (len_nonneg new).
  split; [rewrite len_app; lia|]. split; [lia|]. split; [lia|]. split; [lia|]. split; [lia|]. split.
  - intros j Hj. destruct (Z.lt_ge_cases j size).
    + rewrite O2 by lia. rewrite zn_app1 by lia. apply BV; lia.
    + rewrite F by lia. rewrite zn_app2 by lia. rewrite <- Hs. reflexivity.
  - intros j Hj. rewrite O2 by lia. apply BS; lia.
Qed.

Lemma client_write_ok b size cap l a new :
  vrep (Vec b size cap) l -> size + len new <= cap ->
  exists b' a', client_write k b a size new = Ok (b', a') /\ keeps k a a' /\ vrep (Vec b' (size + len new) cap) (l ++ new).
Proof.
  intros R H. pose proof (len_nonneg l) as LN. unfold client_write. destruct new as [|x new].
  - exists b, a. split; [reflexivity|]. split; [apply keeps_refl|]. rewrite len_nil, Z.add_0_r, app_nil_r. exact R.
  - rewrite len_cons in H. pose proof (len_nonneg new). pose proof R as (Hs & Hc & Hb & HB).
    destruct b as [b|]; [|lia]. destruct HB as (C0 & BL & BV & BS). cbn [need bind].
    destruct (write_list_ok k (x :: new) b a size) as (b' & a' & E & KK & O & F).
    + lia.
    + rewrite len_cons; lia.
    + rewrite len_cons. intros; apply BS; lia.
    + rewrite E. cbn [bind]. eexists; eexists; split; [reflexivity|]. split; [exact KK|].
      apply (vrep_extend b); auto. rewrite len_cons; lia.
Qed.

Lemma cref_ok b size cap l a n v d :
  vrep (Vec b size cap) l -> size < n <= cap ->
  exists b' a', construct_range_with_cref k dbg b a size n (Val v) d = Ok (b', a') /\ keeps k a a' /\
    vrep (Vec b' n cap) (l ++ fill_with (n - size) v).
Proof.
  intros R H. pose proof (len_nonneg l) as LN. pose proof R as (Hs & Hc & Hb & HB).
  destruct b as [b|]; [|lia]. destruct HB as (C0 & BL & BV & BS).
  unfold construct_range_with_cref. rewrite assert_ok by reflexivity. cbn [bind].
  rewrite assert_ok by (apply Z.ltb_lt; lia). cbn [bind].
  destruct (fill_loop_ok k v (Z.to_nat (n - size)) b a size) with (d := d) as (b' & a' & E & KK & O & F).
  - lia.
  - lia.
  - intros; apply BS; lia.
  - rewrite E. cbn [bind]. rewrite Z2Nat.id in * by lia. eexists; eexists; split; [reflexivity|]. split; [exact KK|].
    replace n with (size + len (fill_with (n - size) v)) at 1 by (rewrite len_fill; lia).
    apply (vrep_extend b); auto; rewrite ?len_fill by lia; auto; try lia.
    intros j Hj. rewrite zn_fill by lia. apply F; lia.
Qed.

Lemma from_iter_ok b size cap l a new :
  k <> KReloc -> new <> [] -> vrep (Vec b size cap) l -> size + len new <= cap ->
  exists b' a', copy_from_iterator k dbg b a size new = Ok (b', a') /\ keeps k a a' /\
    vrep (Vec b' (size + len new) cap) (l ++ new).
Proof.
  intros KR NN R H. pose proof (len_nonneg l) as LN. pose proof R as (Hs & Hc & Hb & HB).
  destruct new as [|x new]; [congruence|].
  assert (0 < len (x :: new)) by (rewrite len_cons; pose proof (len_nonneg new); lia).
  destruct b as [b|]; [|lia]. destruct HB as (C0 & BL & BV & BS).
  unfold copy_from_iterator. rewrite assert_ok by reflexivity. cbn [bind].
  rewrite assert_ok by reflexivity. cbn [bind].
  destruct (write_list_ok k (x :: new) b a size) as (b' & a' & E & KK & O & F); try lia.
  { intros; apply BS; lia. }
  assert (X : (match k, (x :: new) with
      | KReloc, _ :: _ => Undef
      | _, _ => do (b1, a1) <- write_list k b a size (x :: new); Ok (Some b1, a1)
      end) = Ok (Some b', a')) by (destruct k; try congruence; rewrite E; reflexivity).
  exists (Some b'), a'. split; [exact X|]. split; [exact KK|]. apply (vrep_extend b); auto.
Qed.

(** Filling the gap made at [pos]. *)
Lemma vrep_gap b b1 b2 size cap l pos new :
  vrep (Vec (Some b) size cap) l -> 0 <= pos <= size -> 0 < len new -> size + len new <= cap ->
  moved_to k b b1 (pos + len new) pos (size - pos) ->
  same_out b1 b2 pos (len new) ->
  (forall j, pos <= j < pos + len new -> b_at b2 j = Live (zn new (j - pos))) ->
  vrep (Vec (Some b2) (size + len new) cap) (take pos l ++ new ++ drop pos l).
Proof.
  intros (Hs & Hc & Hb & C0 & BL & BV & BS) P N R (L1 & F1 & G1 & O1) [L2 O2] F2.
  pose proof (len_nonneg l) as LN.
  assert (LT : len (take pos l) = pos) by (apply len_take; lia).
  assert (LD : len (drop pos l) = size - pos) by (rewrite len_drop; lia).
  split; [rewrite !len_app, LT, LD; lia|]. split; [lia|]. split; [lia|]. split; [lia|]. split; [congruence|]. split.
  - intros j Hj. destruct (Z.lt_ge_cases j pos) as [A|A]; [|destruct (Z.lt_ge_cases j (pos + len new)) as [B|B]].
    + rewrite O2, O1 by lia. rewrite zn_app1, zn_take by lia. apply BV; lia.
    + rewrite F2 by lia. rewrite zn_app2, zn_app1 by lia. rewrite LT. reflexivity.
    + rewrite O2, F1 by lia. rewrite !zn_app2 by lia. rewrite LT, zn_drop by lia.
      rewrite BV by lia. do 2 f_equal. lia.
  - intros j Hj. rewrite O2, O1 by lia. apply BS; lia.
Qed.

Lemma gap_spare b b1 size cap l pos n :
  vrep (Vec (Some b) size cap) l -> 0 <= pos <= size -> 0 < n -> size + n <= cap ->
  moved_to k b b1 (pos + n) pos (size - pos) ->
  forall j, pos <= j < pos + n -> spare k (b_at b1 j).
Proof.
  intros (Hs & Hc & Hb & C0 & BL & BV & BS) P N R (L1 & F1 & G1 & O1) j Hj.
  destruct (Z.lt_ge_cases j size).
  - apply G1; lia.
  - rewrite O1 by lia. apply BS; lia.
Qed.

(** Making room. *)
Lemma mul_pos_lt a b : a <= b -> a * sz <= b * sz.
Proof. destruct SZ; nia. Qed.

Lemma compute_new_ok cap n : cap < n -> compute_new_capacity sz dbg cap n = Ok (Z.max (next_capacity sz cap) n).
Proof.
  intros H. unfold compute_new_capacity. rewrite assert_ok by (apply Z.ltb_lt; lia). cbn [bind].
  destruct (Z.ltb_spec n (next_capacity sz cap)); f_equal; lia.
Qed.

Lemma sz_word n : 0 <= n -> n * sz < M64 -> n < M64.
Proof. intros; destruct SZ; nia. Qed.

Lemma grow_ok safe b size cap l a n :
  vrep (Vec b size cap) l -> 0 <= n -> room sz mal safe b size cap n ->
  (grow_for k sz dbg mal safe b size cap a false n = Ok (b, size, cap, a, true, false) /\ exists x, mal x = false) \/
  (exists b' c' a' m, grow_for k sz dbg mal safe b size cap a false n = Ok (b', size, c', a', false, m) /\
     vrep (Vec b' size c') l /\ keeps k a a' /\ size + n <= c').
Proof.
  intros R N RM. pose proof (len_nonneg l) as LN. pose proof R as (Hs & Hc & Hb & HB).
  unfold grow_for, room in *. destruct safe.
  - destruct RM as [[F0 F1] NO]. pose proof (sz_word _ F0 F1).
    unfold add64. rewrite Z.mod_small by lia. cbn [bind].
    destruct (Z.ltb_spec cap (size + n)) as [L|L].
    + rewrite compute_new_ok by lia. cbn [bind]. set (want := Z.max (next_capacity sz cap) (size + n)).
      destruct (next_facts sz cap SZ) as (NF1 & NF2 & _); [lia|exact Hb|].
      assert (W1 : size + n <= want) by (unfold want; lia).
      assert (W2 : want * sz < M64).
      { unfold want. destruct (Z.max_spec (next_capacity sz cap) (size + n)) as [[_ ->]|[_ ->]]; assumption. }
      destruct (Z.ltb_spec cap want); [|lia].
      destruct (realloc_ok b size cap l a want R) as [[E1 E2]|[E1 (b' & a' & E2 & V & KK)]]; try lia.
      * destruct b; [exact I|]. apply NO; lia.
      * left. rewrite E2. cbn [bind negb]. split; [reflexivity|eauto].
      * right. rewrite E2. cbn [bind negb]. eexists; eexists; eexists; eexists. split; [reflexivity|]. auto.
    + right. exists b, cap, a, false. split; [reflexivity|]. split; [exact R|]. split; [apply keeps_refl|lia].
  - right. exists b, cap, a, false. split; [reflexivity|]. split; [exact R|]. split; [apply keeps_refl|lia].
Qed.

Lemma grow1_ok safe b size cap l a :
  vrep (Vec b size cap) l -> size < cap \/ safe = true /\ null_ok sz mal b (next_capacity sz cap) ->
  (grow_for k sz dbg mal safe b size cap a true 1 = Ok (b, size, cap, a, true, false) /\ exists x, mal x = false) \/
  (exists b' c' a' m, grow_for k sz dbg mal safe b size cap a true 1 = Ok (b', size, c', a', false, m) /\
     vrep (Vec b' size c') l /\ keeps k a a' /\ size + 1 <= c').
Proof.
  intros R RM. pose proof (len_nonneg l) as LN. pose proof R as (Hs & Hc & Hb & HB).
  unfold grow_for, full in *. destruct safe.
  - rewrite assert_ok by (apply Z.leb_le; lia). cbn [bind].
    destruct (Z.eqb_spec size cap) as [L|L].
    + destruct RM as [RM|[_ RM]]; [lia|].
      destruct (next_facts sz cap SZ) as (NF1 & NF2 & _); [lia|exact Hb|]. cbn [bind].
      destruct (Z.ltb_spec cap (next_capacity sz cap)); [|lia].
      destruct (realloc_ok b size cap l a (next_capacity sz cap) R) as [[E1 E2]|[E1 (b' & a' & E2 & V & KK)]]; try lia.
      * destruct b; [exact I|exact RM].
      * left. rewrite E2. cbn [bind negb]. split; [reflexivity|eauto].
      * right. rewrite E2. cbn [bind negb]. eexists; eexists; eexists; eexists. split; [reflexivity|].
        split; [exact V|]. split; [exact KK|lia].
    + right. exists b, cap, a, false. split; [reflexivity|]. split; [exact R|]. split; [apply keeps_refl|lia].
  - right. exists b, cap, a, false. split; [reflexivity|]. split; [exact R|]. split; [apply keeps_refl|].
    destruct RM as [|[? _]]; [lia|discriminate].
Qed.

Lemma read_ref_ok b size cap l r x : vrep (Vec b size cap) l -> the_value l r = Some x -> read_ref b r = Ok x.
Proof.
  intros R E. destruct r as [v|i]; cbn in *; [congruence|].
  apply at_inv in E. destruct E as [E ->]. destruct R as (Hs & Hc & Hb & HB).
  destruct b as [b|]; [|lia]. destruct HB as (C0 & BL & BV & BS). apply read_ok; [lia|]. apply BV; lia.
Qed.

Lemma emplace_back_ok b size cap l a r x :
  vrep (Vec b size cap) l -> the_value l r = Some x -> size = cap ->
  exists v' a' o, realloc_and_emplace_back k sz dbg mal b size cap a (next_capacity sz cap) r = Ok (v', a', o) /\
    match o with
    | Done i => i = len l /\ vrep v' (l ++ [x]) /\ keeps k a a'
    | Threw => (exists y, mal y = false) /\ (v' = Vec b size cap /\ a' = a \/ v' = Broken)
    end.
Proof.
  intros R E Full. pose proof (len_nonneg l) as LN. pose proof R as (Hs & Hc & Hb & HB).
  destruct (next_facts sz cap SZ) as (NF1 & NF2 & _); [lia|exact Hb|].
  unfold realloc_and_emplace_back, allocate.
  rewrite assert_ok by (apply Z.ltb_lt; lia). cbn [bind].
  rewrite assert_ok by (apply Z.ltb_lt; lia). cbn [bind].
  destruct (malloc_ok (next_capacity sz cap)) as [[E1 E2]|[E1 [E2 E3]]]; [lia|lia| |]; rewrite E1.
  - eexists; eexists; eexists; split; [reflexivity|]. cbn. split; [eauto|].
    destruct b as [b|]; [right; reflexivity|]. left. cbn. split; [|reflexivity]. f_equal; lia.
  - rewrite (read_ref_ok b size cap l r x R E). cbn [bind].
    set (nb := {| b_len := next_capacity sz cap; b_at := fun _ => Raw |}).
    destruct (construct_ok k nb a size x) as (a1 & EC & KC); [cbn; lia|apply spare_raw|].
    rewrite EC; cbn [bind]. destruct (Z.ltb_spec 0 size) as [P|P].
    + destruct b as [b|]; [|lia]. destruct HB as (C0 & BL & BV & BS).
      destruct (move_wo_ok k b (set nb size (Live x)) a1 size) as (s' & d' & a' & EM & KK & O & O' & F & G).
      * lia.
      * lia.
      * cbn; lia.
      * intros j Hj; eauto.
      * intros; rewrite set_other by lia; apply spare_raw.
      * rewrite EM; cbn [bind]. eexists; eexists; eexists; split; [reflexivity|]. cbn.
        destruct O as [O1 O2], O' as [O1' O2'].
        split; [lia|]. split.
        -- split; [rewrite len_app; cbn; lia|]. split; [lia|]. split; [lia|]. split; [lia|]. split; [exact O1'|].
           split.
           ++ intros j Hj. destruct (Z.eq_dec j size) as [->|].
              ** rewrite O2' by lia. rewrite set_same. rewrite zn_app2 by lia. rewrite zn_cons0 by lia. reflexivity.
              ** rewrite F by lia. rewrite zn_app1 by lia. apply BV; lia.
           ++ intros j Hj. rewrite O2' by lia. rewrite set_other by lia. apply spare_raw.
        -- eapply keeps_trans; [exact KC|]. eapply keeps_trans; [exact KK|].
           change (keeps k a' (free_buf k (Some s') a')). apply free_ok.
           intros j Hj. apply G; lia.
    + cbn [bind]. eexists; eexists; eexists; split; [reflexivity|]. cbn beta iota.
      assert (Z0 : size = 0) by lia. split; [lia|]. split.
      * assert (l = []) by (destruct l; [reflexivity|rewrite len_cons in Hs; pose proof (len_nonneg l); lia]).
        subst l. cbn [app].
        split; [rewrite Z0; reflexivity|]. split; [lia|]. split; [lia|]. split; [lia|]. split; [reflexivity|].
        split; intros j Hj.
        -- assert (j = size) by lia. subst j. rewrite set_same. rewrite zn_cons0 by lia. reflexivity.
        -- rewrite set_other by lia. apply spare_raw.
      * eapply keeps_trans; [exact KC|]. destruct b as [b|]; [|apply keeps_refl]. apply free_ok.
        destruct HB as (C0 & BL & BV & BS). intros j Hj. apply BS; lia.
Qed.

Lemma copy_value_ok b a i v : k <> KReloc -> 0 <= i < b_len b -> spare k (b_at b i) ->
  exists a', copy_value k b a i v = Ok (set b i (Live v), a') /\ keeps k a a'.
Proof.
  intros KR H S. unfold copy_value. destruct (is_relocatable k) eqn:R.
  - exists a. rewrite store_ok by (assumption || (destruct k; congruence || discriminate)). split; [reflexivity|apply keeps_refl].
  - apply construct_ok; assumption.
Qed.

Lemma append_one b size cap l x :
  vrep (Vec (Some b) size cap) l -> size < cap -> vrep (Vec (Some (set b size (Live x))) (size + 1) cap) (l ++ [x]).
Proof.
  intros R H. pose proof R as (Hs & Hc & Hb & C0 & BL & BV & BS).
  apply (vrep_extend b _ size cap l [x] R); change (len [x]) with 1; try lia.
  - split; [reflexivity|]. intros j Hj. apply set_other; cbn in Hj; lia.
  - intros j Hj. assert (j = size) by (cbn in Hj; lia). subst j. rewrite set_same, zn_cons0 by lia. reflexivity.
Qed.

Definition good (v : vec) (a : acct) (o : uop) (l' : list Z) (r' : Z) (m : res (vec * acct * outc)) : Prop :=
  exists v' a' out, m = Ok (v', a', out) /\
    match out with
    | Done r => vrep v' l' /\ keeps k a a' /\ ret_ok o r r'
    | Threw => (exists n, mal n = false) /\ (v' = v /\ a' = a \/ v' = Broken)
    end.

Lemma insert1_ok b size cap l a safe pos x (cpy : buf -> acct -> Z -> Z -> res (buf * acct)) v o :
  k <> KReloc ->
  (forall b a i v, 0 <= i < b_len b -> spare k (b_at b i) -> exists a', cpy b a i v = Ok (set b i (Live v), a') /\ keeps k a a') ->
  v = Vec b size cap -> vrep v l -> 0 <= pos <= size ->
  size < cap \/ safe = true /\ null_ok sz mal b (next_capacity sz cap) ->
  (forall r r', ret_ok o r r' <-> r = r') ->
  good v a o (take pos l ++ x :: drop pos l) pos
    (do (b1, s1, c1, a1, threw, moved) <- grow_for k sz dbg mal safe b size cap a true 1;
          if threw : bool then Ok (v, a, Threw) else
          do f <- full dbg s1 c1;
          do _ <- assert dbg (negb f);
          do bf <- need b1;
          do (b2, a2) <- (if pos =? s1 then Ok (bf, a1) else open_gap1 k dbg bf a1 pos s1);
          do (b3, a3) <- cpy b2 a2 pos x;
          Ok (Vec (Some b3) (s1 + 1) c1, a3, Done pos)).
Proof.
  intros KR HC -> R P A RO. pose proof (len_nonneg l) as LN.
  destruct (grow1_ok safe b size cap l a R A) as [[E EX]|(b' & c' & a1 & m & E & R1 & K1 & C1)]; rewrite E; cbn [bind].
  - eexists; eexists; eexists; split; [reflexivity|]. cbn. auto.
  - pose proof R1 as (Hs & Hc & Hb & HB).
    unfold full. rewrite assert_ok by (apply Z.leb_le; lia). cbn [bind].
    destruct (Z.eqb_spec size c') as [|_]; [lia|]. rewrite assert_ok by reflexivity. cbn [bind].
    destruct b' as [b'|]; [|lia]. destruct HB as (C0 & BL & BV & BS). cbn [need bind].
    destruct (Z.eqb_spec pos size) as [->|N].
    + cbn [bind]. destruct (HC b' a1 size x) as (a2 & EC & K2); [lia|apply BS; lia|]. rewrite EC; cbn [bind].
      eexists; eexists; eexists; split; [reflexivity|]. cbn beta iota.
      split; [|split; [eapply keeps_trans; eassumption|apply RO; reflexivity]].
      rewrite take_all, drop_all by lia. apply append_one; [exact R1|lia].
    + destruct (open_gap1_ok k dbg b' a1 pos size KR) as (b2 & a2 & EG & K2 & M); try lia.
      { intros j Hj; eexists; apply BV; lia. } { apply BS; lia. }
      rewrite EG; cbn [bind].
      destruct (HC b2 a2 pos x) as (a3 & EC & K3).
      { destruct M as [L _]; lia. }
      { eapply (gap_spare b' b2 size c' l pos 1 R1); lia || exact M. }
      rewrite EC; cbn [bind]. eexists; eexists; eexists; split; [reflexivity|]. cbn beta iota.
      split; [|split; [eapply keeps_trans; [eassumption|eapply keeps_trans; eassumption]|apply RO; reflexivity]].
      apply (vrep_gap b' b2 _ size c' l pos [x] R1); change (len [x]) with 1; try lia; auto.
      * split; [reflexivity|]. intros j Hj. apply set_other; cbn in Hj; lia.
      * intros j Hj. assert (j = pos) by (cbn in Hj; lia). subst j. rewrite set_same, zn_cons0 by lia. reflexivity.
Qed.
End M.
End K.
