(** stdb_vector with throwing element constructors: what interrupted calls leave. *)
Require Import ZArith List Bool Lia.
From Verif Require Import Base BaseProofs VecSpec VecModel VecStatements VecProofs VecProofs2 VecProofs3
  VecThrowModel VecThrowStatements VecThrowProofs.
Import ListNotations.
Open Scope Z_scope.

Section K.
Variable k : kind.
Variable sz : Z.
Variable dbg : bool.
Hypothesis CK : counted k = true.
Hypothesis SZ : size_ok sz.
Variable mal : Z -> bool.
Hypothesis MS : malloc_sane mal.

Let KR : k <> KReloc := not_kreloc k CK.

(** The verdict on an interrupted call. *)
Definition verdict (size cap : Z) (v : vec) (l : list Z) (a : acct) (left : nat) (o : uop) (st : state) (a' : acct) : Prop :=
  (survives k size cap (Z.of_nat left) o ->
     (exists a'', destroy_state k st a' = Ok a'' /\
        (k = KMove \/ k = KCopy -> n_lost a'' = n_lost a + leaked size (Z.of_nat left) o)) /\
     state_size st = Ok size /\
     (forall i, 0 <= i < kept o -> state_at dbg st i = Ok (zn l i))) /\
  (~ survives k size cap (Z.of_nat left) o -> untouched v -> destroy_state k st a' = Undef).
Definition stops (size cap : Z) (v : vec) (l : list Z) (a : acct) (left : nat) (o : uop) (m : res (state * acct * tout)) : Prop :=
  exists st a' out, m = Ok (st, a', out) /\
    match out with
    | TDone _ => False
    | TNoMem => exists n, mal n = false
    | TElem => verdict size cap v l a left o st a'
    end.

Lemma not_survives size cap v l a left o st a' :
  ~ survives k size cap (Z.of_nat left) o -> (untouched v -> destroy_state k st a' = Undef) ->
  verdict size cap v l a left o st a'.
Proof. intros N H. split; [intros X; contradiction|auto]. Qed.

(** Reallocation leaves no objects behind the elements. *)
Lemma realloc_raw b size cap l a n b' s' c' a' : vrep k sz (Vec b size cap) l -> 0 <= size <= n ->
  realloc_with_old_data k sz dbg mal b size cap a n = Ok (Vec (Some b') s' c', a', true) -> n * sz < M64 ->
  forall j, size <= j -> b_at b' j = Raw.
Proof.
  intros (Hs & Hc & Hb & HB) H0 E NM j Hj. unfold realloc_with_old_data, realloc_with_move in E.
  destruct (assert dbg (size <=? n)) as [[]| |]; cbn [bind] in E; try discriminate.
  destruct (malloc_ok sz SZ mal MS n) as [[E1 E2]|[E1 [E2 E3]]]; [lia|lia| |]; rewrite E1 in E.
  - destruct b; destruct (assert dbg _) as [[]| |]; cbn [bind] in E; discriminate.
  - destruct b as [b|].
    + destruct (assert dbg _) as [[]| |]; cbn [bind] in E; try discriminate. rewrite Z.min_l in E by lia.
      destruct HB as (C0 & BL & BV & BS).
      destruct (move_wo_ok k b {| b_len := n; b_at := fun _ => Raw |} a size) as (s & d & a1 & EM & KK & O & [O1 O2] & F & G).
      * lia.
      * lia.
      * cbn; lia.
      * intros i Hi; eauto.
      * intros; apply spare_raw.
      * rewrite EM in E. cbn [bind] in E. injection E as <- _ _ _. rewrite O2 by lia. reflexivity.
    + destruct (assert dbg _) as [[]| |]; cbn [bind] in E; try discriminate. injection E as <- _ _ _. reflexivity.
Qed.

Lemma grow_raw safe b size cap l a one n b' s' c' a' m : vrep k sz (Vec b size cap) l ->
  (one = true -> n = 1) -> 0 <= n -> (size + n) * sz < M64 ->
  grow_for k sz dbg mal safe b size cap a one n = Ok (b', s', c', a', false, m) ->
  vrep k sz (Vec b' s' c') l -> untouched (Vec b size cap) -> untouched (Vec b' s' c').
Proof.
  intros R ON N0 NM E R' U. pose proof R as (Hs & Hc & Hb & HB). pose proof (len_nonneg l) as LN.
  pose proof R' as (Hs' & _). assert (SS : s' = size) by lia.
  unfold grow_for in E. destruct safe; [|replace (Vec b' s' c') with (Vec b size cap) by congruence; exact U].
  destruct (if one then full dbg size cap else _) as [f| |]; cbn [bind] in E; try discriminate.
  destruct f; [|replace (Vec b' s' c') with (Vec b size cap) by congruence; exact U].
  set (w := if one then Ok (next_capacity sz cap) else compute_new_capacity sz dbg cap (add64 size n)) in E.
  assert (W : forall want, w = Ok want -> cap < want -> want * sz < M64 /\ size <= want).
  { intros want Ew CW. split; [|lia].
    destruct (next_facts sz cap SZ) as (NF1 & NF2 & _); [lia|exact Hb|].
    subst w. destruct one; [injection Ew as <-; exact NF2|].
    pose proof (sz_word sz SZ (size + n) ltac:(lia) NM).
    unfold compute_new_capacity, add64 in Ew. rewrite Z.mod_small in Ew by lia.
    destruct (assert dbg _) as [[]| |]; cbn [bind] in Ew; try discriminate.
    destruct (size + n <? next_capacity sz cap); injection Ew as <-; assumption. }
  destruct w as [want| |]; cbn [bind] in E; try discriminate.
  destruct (Z.ltb_spec cap want) as [CW|]; [|replace (Vec b' s' c') with (Vec b size cap) by congruence; exact U].
  destruct (W want eq_refl CW) as [W1 W2].
  destruct (realloc_with_old_data k sz dbg mal b size cap a want) as [[[v1 a1] ok]| |] eqn:ER; cbn [bind] in E; try discriminate.
  destruct v1 as [b1 s1 c1|]; [|discriminate]. injection E as E1 E2 E3 E4 OK E5. destruct ok; [|discriminate].
  destruct b' as [b'|]; [|exact I]. intros j Hj. subst b1. eapply (realloc_raw b size cap l a want); eauto; lia.
Qed.

(** push_back and emplace_back *)
Lemma emplace_back_stops b size cap l a r x v o : vrep k sz (Vec b size cap) l -> the_value l r = Some x -> size = cap ->
  (~ survives k size cap (Z.of_nat 0) o) ->
  stops size cap v l a 0 o (emplace_back_t k sz dbg mal b size cap a (next_capacity sz cap) r 0).
Proof.
  intros R E Full NS. pose proof (len_nonneg l) as LN. pose proof R as (Hs & Hc & Hb & HB).
  destruct (next_facts sz cap SZ) as (NF1 & NF2 & _); [lia|exact Hb|].
  unfold emplace_back_t, allocate.
  rewrite assert_ok by (apply Z.ltb_lt; lia). cbn [bind].
  rewrite assert_ok by (apply Z.ltb_lt; lia). cbn [bind].
  destruct (malloc_ok sz SZ mal MS (next_capacity sz cap)) as [[E1 E2]|[E1 [E2 E3]]]; [lia|lia| |]; rewrite E1.
  - eexists; eexists; eexists; split; [reflexivity|]. cbn beta iota. eauto.
  - rewrite (read_ref_ok k sz b size cap l r x R E). cbn [bind].
    eexists; eexists; eexists; split; [reflexivity|]. cbn beta iota. apply not_survives; [exact NS|]. intros _.
    cbn [destroy_state]. apply core_destroy_undef with size; [exact CK|lia|reflexivity].
Qed.

Lemma back_stops b size cap l a safe r x v o (f : tout -> tout) :
  v = Vec b size cap -> vrep k sz v l -> the_value l r = Some x -> safe = true \/ size < cap ->
  ~ survives k size cap (Z.of_nat 0) o -> f TElem = TElem -> f TNoMem = TNoMem -> forall d,
  stops size cap v l a 0 o
   (do fl <- full dbg size cap;
    if safe && fl then
      do (st, a1, o) <- emplace_back_t k sz dbg mal b size cap a (next_capacity sz cap) r 0;
      Ok (st, a1, f o)
    else
      do _ <- assert dbg (negb fl);
      do bf <- need b;
      do x <- read_ref b r;
      do (b1, a1, ok) <- new_t k bf a size x 0;
      Ok (Whole (Vec (Some b1) (size + 1) cap), a1, if ok : bool then TDone d else TElem)).
Proof.
  intros -> R E AL NS F1 F2 d. pose proof (len_nonneg l) as LN. pose proof R as (Hs & Hc & Hb & HB).
  unfold full. rewrite assert_ok by (apply Z.leb_le; lia). cbn [bind].
  destruct (Z.eqb_spec size cap) as [Full|NF].
  - destruct AL as [->|]; [|lia]. cbn [andb].
    destruct (emplace_back_stops b size cap l a r x (Vec b size cap) o R E Full NS) as (st & a' & out & EM & X).
    rewrite EM. cbn [bind]. eexists; eexists; eexists; split; [reflexivity|].
    destruct out; [destruct X|rewrite F2|rewrite F1]; exact X.
  - rewrite andb_false_r. rewrite assert_ok by reflexivity. cbn [bind].
    destruct b as [b|]; [|lia]. cbn [need bind]. rewrite (read_ref_ok k sz (Some b) size cap l r x R E). cbn [bind new_t].
    eexists; eexists; eexists; split; [reflexivity|]. cbn beta iota. apply not_survives; [exact NS|]. intros U.
    cbn [destroy_state]. apply core_destroy_undef with size; [exact CK|lia|]. apply U; lia.
Qed.

(** resize *)
Lemma resize_stops b size cap l a n x d v o left : v = Vec b size cap -> vrep k sz v l -> size < n ->
  Z.of_nat left < n - size -> n * sz < M64 -> (cap < n -> null_ok sz mal b n) ->
  ~ survives k size cap (Z.of_nat left) o ->
  stops size cap v l a left o (resize_t k sz dbg mal b size cap a n (Val x) d left).
Proof.
  intros -> R Hn HL NM NO NS. pose proof (len_nonneg l) as LN. pose proof R as (Hs & Hc & Hb & HB).
  assert (X : forall b' c' a1, vrep k sz (Vec (Some b') size c') l -> n <= c' ->
     (untouched (Vec b size cap) -> forall j, size <= j < c' -> b_at b' j = Raw) ->
     stops size cap (Vec b size cap) l a left o
       (do (b2, a2, fin) <- cref_t k dbg (Some b') a1 size n (Val x) d left;
        Ok (Whole (Vec b2 n c'), a2, if fin : bool then TDone 0 else TElem))).
  { intros b' c' a1 (Hs' & Hc' & Hb' & C0 & BL & BV & BS) CN U.
    destruct (cref_t_stop k dbg b' a1 size (n - size) x d left) as (b2 & a2 & E & KK & [O1 O2] & F); try lia.
    { intros; apply BS; lia. }
    replace (size + (n - size)) with n in E by lia. rewrite E. cbn [bind].
    eexists; eexists; eexists; split; [reflexivity|]. cbn beta iota. apply not_survives; [exact NS|]. intros UV.
    cbn [destroy_state]. apply core_destroy_undef with (size + Z.of_nat left); [exact CK|lia|].
    rewrite O2 by lia. apply U; [exact UV|lia]. }
  unfold resize_t. destruct (Z.ltb_spec cap n) as [L|L].
  - destruct (realloc_ok k sz dbg SZ mal MS b size cap l a n R) as [[E1 E2]|[E1 (b' & a' & E2 & V & KK)]]; try lia.
    { destruct b; [exact I|]. apply NO; lia. }
    + rewrite E2. cbn [bind negb]. eexists; eexists; eexists; split; [reflexivity|]. cbn beta iota. eauto.
    + rewrite E2. cbn [bind negb]. apply X; [exact V|lia|].
      intros _ j Hj. eapply (realloc_raw b size cap l a n); eauto; lia.
  - cbn [bind negb]. destruct b as [b|]; [|lia]. apply X; [exact R|lia|]. intros U j Hj. apply U; lia.
Qed.

(** assign *)
Lemma clear_raw b size cap l a : vrep k sz (Vec b size cap) l ->
  exists b' a', core_clear k dbg b size cap a = Ok (b', a') /\ keeps k a a' /\ vrep k sz (Vec b' 0 cap) [] /\
    match b, b' with
    | Some b, Some b' => (forall j, 0 <= j < size -> b_at b' j = Raw) /\ (forall j, size <= j -> b_at b' j = b_at b j)
    | None, None => True | _, _ => False end.
Proof.
  intros R. destruct (core_clear_ok k sz dbg b size cap l a R) as (b' & a' & E & KK & V & N).
  exists b', a'. split; [exact E|]. split; [exact KK|]. split; [exact V|].
  pose proof R as (Hs & Hc & Hb & HB). pose proof (len_nonneg l) as LN.
  unfold core_clear in E. destruct (assert dbg _) as [[]| |]; cbn [bind] in E; try discriminate.
  destruct b as [b|]; [|destruct b'; [destruct N as [_ N]; specialize (N eq_refl); discriminate|exact I]].
  destruct HB as (C0 & BL & BV & BS).
  destruct (destroy_raw k CK (Z.to_nat size) b a 0) as (b1 & a1 & ED & _ & _ & _ & _ & [O1 O2] & F); try lia.
  { intros j Hj. rewrite BV by lia. discriminate. }
  rewrite ED in E. cbn [bind] in E. injection E as <- _. split; intros j Hj; [apply F; lia|apply O2; lia].
Qed.

Lemma assign_n_stops b size cap l a n x left : vrep k sz (Vec b size cap) l -> 0 < n -> n * sz < M64 ->
  Z.of_nat left < n ->
  stops size cap (Vec b size cap) l a left (UAssignN n (Val x)) (trun k sz dbg mal left (Vec b size cap) a (UAssignN n (Val x))).
Proof.
  intros R Hn NM HL. pose proof R as (Hs & Hc & Hb & HB). pose proof (len_nonneg l) as LN.
  assert (X : forall b' c' a1 d, b_len b' = c' -> n <= c' -> (forall j, 0 <= j < c' -> spare k (b_at b' j)) ->
     (untouched (Vec b size cap) -> forall j, 0 <= j < c' -> b_at b' j = Raw) ->
     stops size cap (Vec b size cap) l a left (UAssignN n (Val x))
       (do (b2, a2, ok) <- cref_t k dbg (Some b') a1 0 n (Val x) d left;
        Ok (Whole (Vec b2 n c'), a2, if ok : bool then TDone 0 else TElem))).
  { intros b' c' a1 d BL CN SP U.
    destruct (cref_t_stop k dbg b' a1 0 n x d left) as (b2 & a2 & E & KK & [O1 O2] & F); try lia.
    { intros; apply SP; lia. }
    cbn [Z.add] in E. rewrite E. cbn [bind].
    eexists; eexists; eexists; split; [reflexivity|]. cbn beta iota. apply not_survives; [exact (fun x => x)|]. intros UV.
    cbn [destroy_state]. apply core_destroy_undef with (Z.of_nat left); [exact CK|lia|].
    rewrite O2 by lia. apply U; [exact UV|lia]. }
  cbn [trun]. destruct (Z.ltb_spec cap n) as [L|L].
  - unfold realloc_drop_old_data, allocate. destruct (core_destroy_ok k sz b size cap l a R) as (a1 & ED & _).
    rewrite ED. cbn [bind]. rewrite assert_ok by (apply Z.ltb_lt; lia). cbn [bind].
    destruct (malloc_ok sz SZ mal MS n) as [[E1 E2]|[E1 [E2 E3]]]; [lia|lia| |]; rewrite E1.
    + eexists; eexists; eexists; split; [reflexivity|]. cbn beta iota. eauto.
    + apply X; [reflexivity|lia|intros; apply spare_raw|reflexivity].
  - destruct (clear_raw b size cap l a R) as (b' & a' & E & KK & V & CR). rewrite E. cbn [bind].
    destruct b as [b|]; [|lia]. destruct b' as [b'|]; [|destruct CR]. destruct CR as [C1 C2].
    destruct V as (_ & _ & _ & _ & BL' & _ & BS'). apply X; [exact BL'|lia|exact BS'|].
    intros U j Hj. destruct (Z.lt_ge_cases j size); [apply C1; lia|]. rewrite C2 by lia. apply U; lia.
Qed.

Lemma spare_live j c1 : j = true -> k = KMove \/ k = KCopy -> spare k c1 -> is_live c1 = false.
Proof. intros _ [E|E]; unfold spare; rewrite E; [auto|intros ->; reflexivity]. Qed.

Lemma assign_range_stops b size cap l a new left : vrep k sz (Vec b size cap) l -> len new * sz < M64 ->
  Z.of_nat left < len new ->
  stops size cap (Vec b size cap) l a left (UAssignRange new) (trun k sz dbg mal left (Vec b size cap) a (UAssignRange new)).
Proof.
  intros R NM HL. pose proof R as (Hs & Hc & Hb & HB). pose proof (len_nonneg l) as LN.
  cbn [trun]. destruct (Z.ltb_spec cap (len new)) as [L|L].
  - unfold realloc_drop_old_data, allocate. destruct (core_destroy_ok k sz b size cap l a R) as (a1 & ED & _).
    rewrite ED. cbn [bind]. rewrite assert_ok by (apply Z.ltb_lt; lia). cbn [bind].
    destruct (malloc_ok sz SZ mal MS (len new)) as [[E1 E2]|[E1 [E2 E3]]]; [lia|lia| |]; rewrite E1.
    + eexists; eexists; eexists; split; [reflexivity|]. cbn beta iota. eauto.
    + destruct (from_iter_t_stop k dbg {| b_len := len new; b_at := fun _ => Raw |} a1 0 new left) as (b2 & a2 & E & _); try (cbn; lia).
      { intros; apply spare_raw. }
      rewrite E. cbn [bind]. eexists; eexists; eexists; split; [reflexivity|]. cbn beta iota.
      apply not_survives; [cbn; lia|]. intros _. cbn. destruct k; discriminate CK || reflexivity.
  - destruct (clear_raw b size cap l a R) as (b' & a' & E & KK & V & CR). rewrite E. cbn [bind].
    destruct (Z.ltb_spec 0 (len new)); [|lia].
    destruct b as [b|]; [|lia]. destruct b' as [b'|]; [|destruct CR]. destruct CR as [C1 C2].
    destruct V as (_ & _ & _ & _ & BL' & _ & BS').
    destruct (from_iter_t_stop k dbg b' a' 0 new left) as (b2 & a2 & E2 & K2 & [O1 O2] & F); try lia.
    { intros; apply BS'; lia. }
    rewrite E2. cbn [bind]. eexists; eexists; eexists; split; [reflexivity|]. cbn beta iota. split.
    + intros [_ S]. split; [|split; [reflexivity|cbn; intros; lia]].
      destruct (core_destroy_count k CK b2 size a2 size (Z.of_nat left) (Z.of_nat left) (Z.of_nat left)) as (a3 & ED & CNT).
      * lia.
      * intros j Hj. rewrite F by lia. discriminate.
      * exists a3. split; [exact ED|]. intros KS. cbn [leaked]. rewrite CNT; try lia.
        -- destruct (keeps_trans _ _ _ _ KK K2) as [KL _]. rewrite KL by exact KS. lia.
        -- intros j Hj. destruct (Z.lt_ge_cases j (Z.of_nat left)) as [X|X].
           ++ rewrite F by lia. cbn. split; [lia|reflexivity].
           ++ rewrite O2 by lia. rewrite (spare_live true) by (reflexivity || assumption || (apply BS'; lia)).
              split; [discriminate|lia].
    + intros NS _. cbn [destroy_state]. cbn [survives] in NS. apply core_destroy_undef with (Z.of_nat left); [exact CK|lia|].
      rewrite O2 by lia. apply C1; lia.
Qed.

(** The state after a throwing insertion into a gap of [n] slots at [pos]. *)
Lemma gap_verdict b' c' b2 b3 size cap v l a a1 a2 a3 left pos n o :
  vrep k sz (Vec (Some b') size c') l -> 0 <= pos <= size -> 0 < n -> size + n <= c' -> Z.of_nat left < n ->
  moved_to k b' b2 (pos + n) pos (size - pos) ->
  (k <> KCopy -> forall x, b_at b' x <> Raw -> b_at b2 x <> Raw) ->
  same_out b2 b3 pos (Z.of_nat left) -> (forall j, pos <= j < pos + Z.of_nat left -> exists x, b_at b3 j = Live x) ->
  keeps k a a1 -> keeps k a1 a2 -> keeps k a2 a3 ->
  (survives k size cap (Z.of_nat left) o <-> (k <> KCopy \/ size - pos <= Z.of_nat left)) ->
  leaked size (Z.of_nat left) o = Z.min n (size - pos) + Z.max 0 (pos + Z.of_nat left - size) -> kept o = pos ->
  verdict size cap v l a left o (Whole (Vec (Some b3) size c')) a3.
Proof.
  intros R P N0 RM HL MT OB [O1 O2] F K1 K2 K3 SV LK KP.
  pose proof (gap_spare k sz b' b2 size c' l pos n R P N0 RM MT) as GS.
  destruct R as (Hs & Hc & Hb & C0 & BL & BV & BS). destruct MT as (M1 & M2 & M3 & M4). pose proof (len_nonneg l) as LN.
  split.
  - intros S. apply SV in S. split; [|split; [reflexivity|]].
    + destruct (core_destroy_count k CK b3 size a3 (Z.min (Z.max size pos) (Z.max size (pos + Z.of_nat left))) (Z.max size (pos + Z.of_nat left)) (Z.max size (pos + n)) (size + n)) as (a4 & ED & CNT).
      * lia.
      * intros j Hj. destruct (Z.lt_ge_cases j pos) as [A|A]; [|destruct (Z.lt_ge_cases j (pos + Z.of_nat left)) as [B|B]].
        -- rewrite O2, M4, BV by lia. discriminate.
        -- destruct (F j) as [x E]; [lia|]. rewrite E. discriminate.
        -- rewrite O2 by lia. destruct S as [S|S]; [|lia]. apply OB; [exact S|]. rewrite BV by lia. discriminate.
      * exists a4. split; [exact ED|]. intros KS. rewrite CNT; try lia.
        -- rewrite LK. destruct (keeps_trans _ _ _ _ K1 (keeps_trans _ _ _ _ K2 K3)) as [KL _]. rewrite KL by exact KS. lia.
        -- intros j Hj. destruct (Z.lt_ge_cases j (pos + Z.of_nat left)) as [B|B]; [|destruct (Z.lt_ge_cases j (pos + n)) as [C|C]; [|destruct (Z.lt_ge_cases j (size + n)) as [D|D]]].
           ++ destruct (F j) as [x E]; [lia|]. rewrite E. cbn. split; [lia|reflexivity].
           ++ rewrite O2 by lia. rewrite (spare_live true) by (reflexivity || assumption || (apply GS; lia)). split; [discriminate|lia].
           ++ rewrite O2, M2, BV by lia. cbn. split; [lia|reflexivity].
           ++ rewrite O2, M4 by lia. rewrite (spare_live true) by (reflexivity || assumption || (apply BS; lia)). split; [discriminate|lia].
    + intros i Hi. rewrite KP in Hi. cbn [state_at vat]. rewrite assert_ok by (apply andb_true_intro; split; [apply Z.leb_le|apply Z.ltb_lt]; lia).
      cbn [bind need]. apply read_ok; [lia|]. rewrite O2, M4, BV by lia. reflexivity.
  - intros NS _. cbn [destroy_state]. assert (KC : k = KCopy /\ Z.of_nat left < size - pos).
    { split; [destruct k; try reflexivity; exfalso; apply NS, SV; left; discriminate|].
      destruct (Z.lt_ge_cases (Z.of_nat left) (size - pos)); [assumption|]. exfalso. apply NS, SV. right; lia. }
    destruct KC as [KC LT]. apply core_destroy_undef with (pos + Z.of_nat left); [exact CK|lia|].
    rewrite O2 by lia. specialize (GS (pos + Z.of_nat left) ltac:(lia)). unfold spare in GS. rewrite KC in GS. exact GS.
Qed.

Lemma put_stops safe b size cap l a pos x o : vrep k sz (Vec b size cap) l -> 0 <= pos <= size ->
  size < cap \/ safe = true /\ null_ok sz mal b (next_capacity sz cap) ->
  (survives k size cap (Z.of_nat 0) o <-> (k <> KCopy /\ pos < size)) ->
  leaked size (Z.of_nat 0) o = 1 -> kept o = pos ->
  stops size cap (Vec b size cap) l a 0 o
    (do (b1, s1, c1, a1, threw, moved) <- grow_for k sz dbg mal safe b size cap a true 1;
     if threw : bool then Ok (Whole (Vec b size cap), a, TNoMem) else put_t k dbg b1 s1 c1 a1 pos (Val x) moved 0).
Proof.
  intros R P A SV LK KP. pose proof (len_nonneg l) as LN. pose proof R as (Hs & Hc & Hb & HB).
  destruct (grow1_ok k sz dbg SZ mal MS safe b size cap l a R A) as [[E EX]|(b' & c' & a1 & m & E & R1 & K1 & C1)]; rewrite E; cbn [bind].
  - eexists; eexists; eexists; split; [reflexivity|]. cbn beta iota. exact EX.
  - assert (NM : (size + 1) * sz < M64).
    { destruct SZ as [S1 S2]. unfold HALF, M64 in *. nia. }
    pose proof (grow_raw safe b size cap l a true 1 b' size c' a1 m R ltac:(auto) ltac:(lia) NM E R1) as GU.
    pose proof R1 as (Hs1 & Hc1 & Hb1 & HB1). unfold put_t.
    unfold full. rewrite assert_ok by (apply Z.leb_le; lia). cbn [bind].
    destruct (Z.eqb_spec size c') as [|_]; [lia|]. rewrite assert_ok by reflexivity. cbn [bind].
    destruct b' as [b'|]; [|lia]. destruct HB1 as (C0 & BL & BV & BS). cbn [need bind].
    destruct (Z.eqb_spec pos size) as [->|N].
    + cbn [bind read_ref new_t]. eexists; eexists; eexists; split; [reflexivity|]. cbn beta iota.
      apply not_survives; [rewrite SV; lia|]. intros U. specialize (GU U).
      cbn [destroy_state]. apply core_destroy_undef with size; [exact CK|lia|]. apply GU; lia.
    + destruct (open_gap1_ok k dbg b' a1 pos size KR) as (b2 & a2 & EG & K2 & M); try lia.
      { intros j Hj; eexists; apply BV; lia. } { apply BS; lia. }
      rewrite EG; cbn [bind read_ref new_t]. eexists; eexists; eexists; split; [reflexivity|]. cbn beta iota.
      apply (gap_verdict b' c' b2 b2 size cap (Vec b size cap) l a a1 a2 a2 0 pos 1 o); try lia; auto.
      * intros NK y. eapply open_gap1_obj; eauto.
      * split; auto.
      * apply keeps_refl.
      * rewrite SV. change (Z.of_nat 0) with 0. split; [tauto|]. intros [X|X]; [split; [exact X|lia]|lia].
Qed.

Lemma fits_next size cap n l b : vrep k sz (Vec b size cap) l -> forall safe, room sz mal safe b size cap n -> (size + n) * sz < M64.
Proof.
  intros (Hs & Hc & Hb & HB) safe RM. destruct safe; cbn in RM; [apply RM|].
  destruct SZ as [S1 S2]. unfold HALF, M64 in *. nia.
Qed.

Lemma insertn_stops safe b size cap l a pos n x left : vrep k sz (Vec b size cap) l -> 0 <= pos <= size -> 0 < n ->
  room sz mal safe b size cap n -> Z.of_nat left < n ->
  stops size cap (Vec b size cap) l a left (UInsertN safe pos n (Val x))
    (trun k sz dbg mal left (Vec b size cap) a (UInsertN safe pos n (Val x))).
Proof.
  intros R P N0 RM HL. pose proof (len_nonneg l) as LN. pose proof R as (Hs & Hc & Hb & HB).
  pose proof (fits_next size cap n l b R safe RM) as NM. cbn [trun].
  rewrite assert_ok by (apply Z.ltb_lt; lia). cbn [bind].
  rewrite assert_ok by (apply andb_true_intro; split; apply Z.leb_le; lia). cbn [bind].
  destruct (grow_ok k sz dbg SZ mal MS safe b size cap l a n R ltac:(lia) RM) as [[E EX]|(b' & c' & a1 & m & E & R1 & K1 & C1)]; rewrite E; cbn [bind].
  - eexists; eexists; eexists; split; [reflexivity|]. cbn beta iota. exact EX.
  - pose proof R1 as (Hs1 & Hc1 & Hb1 & HB1). pose proof (sz_word sz SZ (size + n) ltac:(lia) NM).
    unfold add64. rewrite Z.mod_small by lia. rewrite assert_ok by (apply Z.leb_le; lia). cbn [bind].
    destruct b' as [b'|]; [|lia]. destruct HB1 as (C0 & BL & BV & BS). cbn [need bind].
    destruct (Z.ltb_spec (b_len b') (pos + n)); [lia|].
    destruct (open_gap_ok k dbg b' a1 pos n size KR) as (b2 & a2 & EG & K2 & M); try lia.
    { intros j Hj; eexists; apply BV; lia. } { intros; apply BS; lia. }
    rewrite EG; cbn [bind]. pose proof M as (M1 & _).
    destruct (cref_t_stop k dbg b2 a2 pos n x m left) as (b3 & a3 & EC & K3 & O & F); try lia.
    { intros; eapply (gap_spare k sz b' b2 size c' l pos n R1); lia || exact M. }
    rewrite EC; cbn [bind]. eexists; eexists; eexists; split; [reflexivity|]. cbn beta iota.
    apply (gap_verdict b' c' b2 b3 size cap (Vec b size cap) l a a1 a2 a3 left pos n); try lia; auto.
    + intros NK y. eapply open_gap_obj; eauto.
    + intros j Hj. exists x. apply F; lia.
    + reflexivity.
Qed.

Lemma insertrange_stops safe b size cap l a pos new left : vrep k sz (Vec b size cap) l -> 0 <= pos <= size ->
  room sz mal safe b size cap (len new) -> Z.of_nat left < len new ->
  stops size cap (Vec b size cap) l a left (UInsertRange safe pos new)
    (trun k sz dbg mal left (Vec b size cap) a (UInsertRange safe pos new)).
Proof.
  intros R P RM HL. pose proof (len_nonneg l) as LN. pose proof R as (Hs & Hc & Hb & HB).
  pose proof (fits_next size cap (len new) l b R safe RM) as NM. cbn [trun].
  destruct (Z.eqb_spec (len new) 0); [lia|].
  destruct (grow_ok k sz dbg SZ mal MS safe b size cap l a (len new) R ltac:(lia) RM) as [[E EX]|(b' & c' & a1 & m & E & R1 & K1 & C1)]; rewrite E; cbn [bind].
  - eexists; eexists; eexists; split; [reflexivity|]. cbn beta iota. exact EX.
  - pose proof R1 as (Hs1 & Hc1 & Hb1 & HB1). pose proof (sz_word sz SZ (size + len new) ltac:(lia) NM).
    unfold add64. rewrite Z.mod_small by lia. rewrite assert_ok by (apply Z.leb_le; lia). cbn [bind].
    destruct b' as [b'|]; [|lia]. destruct HB1 as (C0 & BL & BV & BS). cbn [need bind].
    destruct (Z.ltb_spec (b_len b') (pos + len new)); [lia|].
    destruct (open_gap_ok k dbg b' a1 pos (len new) size KR) as (b2 & a2 & EG & K2 & M); try lia.
    { intros j Hj; eexists; apply BV; lia. } { intros; apply BS; lia. }
    rewrite EG; cbn [bind]. pose proof M as (M1 & _).
    destruct (from_iter_t_stop k dbg b2 a2 pos new left) as (b3 & a3 & EC & K3 & O & F); try lia.
    { intros; eapply (gap_spare k sz b' b2 size c' l pos (len new) R1); lia || exact M. }
    rewrite EC; cbn [bind]. eexists; eexists; eexists; split; [reflexivity|]. cbn beta iota.
    apply (gap_verdict b' c' b2 b3 size cap (Vec b size cap) l a a1 a2 a3 left pos (len new)); try lia; auto.
    + intros NK y. eapply open_gap_obj; eauto.
    + intros j Hj. eexists. apply F; lia.
    + reflexivity.
Qed.

Theorem trun_stops b size cap l a o left x : vrep k sz (Vec b size cap) l ->
  allowed k sz dbg mal (Vec b size cap) o -> apply o l = Some x -> Z.of_nat left < needs size o ->
  stops size cap (Vec b size cap) l a left o (trun k sz dbg mal left (Vec b size cap) a o).
Proof.
  intros R AL AP HL. destruct AL as [KO AL]. pose proof R as (Hs & Hc & Hb & HB). pose proof (len_nonneg l) as LN.
  destruct o; cbn [needs] in HL; try lia.
  - destruct AL as (IV & _ & F0 & F1). destruct r as [v|]; [|destruct IV].
    apply assign_n_stops; auto; lia.
  - destruct AL as (_ & F0 & F1). apply assign_range_stops; auto.
  - cbn in AP. destruct (the_value l r) as [v|] eqn:E; [|discriminate]. assert (left = O) by lia. subst left.
    apply (back_stops b size cap l a safe r v (Vec b size cap) (UPush safe r) (fun o => match o with TDone _ => TDone 0 | _ => o end)); auto.
  - cbn in AP. destruct (the_value l r) as [v|] eqn:E; [|discriminate]. assert (left = O) by lia. subst left.
    pose proof (back_stops b size cap l a safe r v (Vec b size cap) (UEmplaceBack safe r) (fun o => o) eq_refl R E AL ltac:(intros []) eq_refl eq_refl size) as X.
    cbn [trun]. destruct X as (st & a' & out & EQ & X). exists st, a', out. split; [|exact X]. rewrite <- EQ.
    destruct (full dbg size cap) as [f| |]; cbn [bind]; try reflexivity. destruct (safe && f); [|reflexivity].
    destruct (emplace_back_t _ _ _ _ _ _ _ _ _ _ _) as [[[? ?] ?]| |]; reflexivity.
  - destruct AL as ((F0 & F1) & NO). cbn [trun]. destruct (Z.ltb_spec size n); [|lia].
    apply resize_stops; auto; lia.
  - destruct AL as (IV & (F0 & F1) & NO). destruct r as [v|]; [|destruct IV]. cbn [trun]. destruct (Z.ltb_spec size n); [|lia].
    apply resize_stops; auto; lia.
  - destruct AL as (IV & AL). destruct r as [v|]; [|destruct IV]. cbn in AP.
    destruct (Z.leb_spec 0 pos), (Z.leb_spec pos (len l)); cbn in AP; try discriminate.
    assert (left = O) by lia. subst left. cbn [trun].
    rewrite assert_ok by (apply andb_true_intro; split; apply Z.leb_le; lia). cbn [bind].
    apply put_stops; auto; try lia. cbn. tauto.
  - destruct AL as (IV & AL). destruct r as [v|]; [|destruct IV]. cbn in AP.
    destruct (Z.leb_spec 0 pos), (Z.leb_spec pos (len l)), (Z.ltb_spec 0 n); cbn in AP; try discriminate.
    apply insertn_stops; auto; lia.
  - cbn in AP. destruct (Z.leb_spec 0 pos), (Z.leb_spec pos (len l)); cbn in AP; try discriminate.
    apply insertrange_stops; auto; lia.
  - destruct AL as (IV & AL). destruct r as [v|]; [|destruct IV]. cbn in AP.
    destruct (Z.leb_spec 0 pos), (Z.leb_spec pos (len l)); cbn in AP; try discriminate.
    assert (left = O) by lia. subst left. cbn [trun].
    apply put_stops; auto; try lia. cbn. tauto.
Qed.

(** Constructors and copy assignment. *)
Theorem new_fill_stops left a n x : 0 < n -> n * sz < M64 -> Z.of_nat left < n ->
  new_fill_t k sz dbg mal left a n x = Undef \/
  new_fill_t k sz dbg mal left a n x = Ok (None, a, TNoMem) /\ mal (n * sz) = false.
Proof.
  intros N0 NM HL. unfold new_fill_t, allocate. destruct (Z.ltb_spec 0 n); [|lia].
  rewrite assert_ok by (reflexivity || (apply Z.ltb_lt; lia)). cbn [bind].
  destruct (malloc_ok sz SZ mal MS n) as [[E1 E2]|[E1 [E2 E3]]]; [lia|lia| |]; rewrite E1; [right; auto|left].
  destruct (cref_t_stop k dbg {| b_len := n; b_at := fun _ => Raw |} a 0 n x false left) as (b2 & a2 & E & KK & [O1 O2] & F); try (cbn; lia).
  { intros; apply spare_raw. }
  cbn [Z.add] in E. rewrite E. cbn [bind]. rewrite (core_destroy_undef k CK b2 n a2 (Z.of_nat left)); [reflexivity|lia|].
  rewrite O2 by lia. reflexivity.
Qed.
Theorem new_range_stops left a l : len l * sz < M64 -> Z.of_nat left < len l ->
  new_range_t k sz dbg mal left a l = Undef \/
  new_range_t k sz dbg mal left a l = Ok (None, a, TNoMem) /\ mal (len l * sz) = false.
Proof.
  intros NM HL. unfold new_range_t, allocate. destruct (Z.ltb_spec 0 (len l)); [|lia].
  rewrite assert_ok by (reflexivity || (apply Z.ltb_lt; lia)). cbn [bind].
  destruct (malloc_ok sz SZ mal MS (len l)) as [[E1 E2]|[E1 [E2 E3]]]; [lia|lia| |]; rewrite E1; [right; auto|left].
  destruct (from_iter_t_stop k dbg {| b_len := len l; b_at := fun _ => Raw |} a 0 l left) as (b2 & a2 & E & KK & [O1 O2] & F); try (cbn; lia).
  { intros; apply spare_raw. }
  rewrite E. cbn [bind destroy_state]. destruct k; discriminate CK || reflexivity.
Qed.
Lemma copy_range_t_stop src b a n l left : 0 < n -> Z.of_nat left < n -> n <= b_len src -> n <= b_len b ->
  (forall j, 0 <= j < n -> b_at src j = Live (zn l j)) -> (forall j, 0 <= j < n -> spare k (b_at b j)) ->
  exists b' a', copy_range_t k dbg src b a n left = Ok (b', a', false) /\ keeps k a a' /\
    same_out b b' 0 (Z.of_nat left) /\ forall j, 0 <= j < Z.of_nat left -> b_at b' j = Live (zn l j).
Proof.
  intros N0 HL L1 L2 HS SP. unfold copy_range_t. rewrite assert_ok by (reflexivity || (apply Z.ltb_lt; lia)). cbn [bind].
  destruct (copy_t_stop k src l left (Z.to_nat n) b a 0) as (b' & a' & E & X); try lia.
  - intros; apply HS; lia.
  - intros; apply SP; lia.
  - exists b', a'. auto.
Qed.
Theorem copy_new_stops left a w l : vrep k sz w l -> Z.of_nat left < len l ->
  (copy_new_t k sz dbg mal left a w = Ok (None, a, TNoMem) /\ mal (len l * sz) = false) \/
  exists a', copy_new_t k sz dbg mal left a w = Ok (None, a', TElem) /\
    (k = KMove \/ k = KCopy -> n_lost a' = n_lost a + Z.of_nat left).
Proof.
  intros R HL. destruct w as [wb wsize wcap|]; [|destruct R]. pose proof R as (Hs & Hc & Hb & HB). pose proof (len_nonneg l) as LN.
  unfold copy_new_t, allocate. destruct (Z.ltb_spec 0 wsize); [|lia].
  rewrite assert_ok by (reflexivity || (apply Z.ltb_lt; lia)). cbn [bind].
  destruct (malloc_ok sz SZ mal MS wsize) as [[E1 E2]|[E1 [E2 E3]]]; [lia|destruct SZ; unfold HALF, M64 in *; nia| |]; rewrite E1.
  - left. rewrite <- Hs. auto.
  - right. destruct wb as [wb|]; [|lia]. destruct HB as (C0 & BL & BV & BS). cbn [need bind].
    destruct (copy_range_t_stop wb {| b_len := wsize; b_at := fun _ => Raw |} a wsize l left) as (b' & a' & E & KK & [O1 O2] & F);
      try (cbn; lia); auto.
    { intros; apply spare_raw. }
    rewrite E. cbn [bind]. eexists; split; [reflexivity|]. intros KS. cbn [free_buf]. rewrite CK. cbn [n_lost].
    destruct KK as [KL _]. rewrite KL by exact KS. f_equal. cbn in O1.
    rewrite (count_spans is_live (b_at b') 0 (Z.of_nat left) (Z.of_nat left) (Z.of_nat left)); try lia.
    + unfold span. lia.
    + intros j Hj. destruct (Z.lt_ge_cases j (Z.of_nat left)).
      * rewrite F by lia. cbn. split; [lia|reflexivity].
      * rewrite O2 by lia. cbn. split; [discriminate|lia].
Qed.
Theorem assign_stops left a v l w lw size cap : vrep k sz v l -> vrep k sz w lw -> Z.of_nat left < len lw ->
  vsize v = Ok size -> vcapacity v = Ok cap ->
  stops size cap v l a left (UAssignRange lw) (assign_t k sz dbg mal left a v w).
Proof.
  intros R RW HL VS VC. destruct v as [b s c|]; [|destruct R]. cbn in VS, VC. injection VS as ->. injection VC as ->.
  destruct w as [wb wsize wcap|]; [|destruct RW].
  pose proof R as (Hs & Hc & Hb & HB). pose proof (len_nonneg l) as LN.
  pose proof RW as (Hs' & Hc' & Hb' & HB'). pose proof (len_nonneg lw) as LN'.
  assert (NM : wsize * sz < M64) by (destruct SZ; unfold HALF, M64 in *; nia).
  destruct wb as [wb|]; [|lia]. destruct HB' as (C0' & BL' & BV' & BS').
  unfold assign_t. destruct (Z.ltb_spec cap wsize) as [L|L].
  - destruct (core_destroy_ok k sz b size cap l a R) as (a1 & ED & _). rewrite ED. cbn [bind].
    unfold allocate. rewrite assert_ok by (reflexivity || (apply Z.ltb_lt; lia)). cbn [bind].
    destruct (malloc_ok sz SZ mal MS wsize) as [[E1 E2]|[E1 [E2 E3]]]; [lia|lia| |]; rewrite E1.
    + eexists; eexists; eexists; split; [reflexivity|]. cbn beta iota. eauto.
    + cbn [need bind].
      destruct (copy_range_t_stop wb {| b_len := wsize; b_at := fun _ => Raw |} a1 wsize lw left) as (b2 & a2 & E & _); try (cbn; lia); auto.
      { intros; apply spare_raw. }
      rewrite E. cbn [bind]. eexists; eexists; eexists; split; [reflexivity|]. cbn beta iota.
      apply not_survives; [cbn; lia|]. intros _. cbn. destruct k; discriminate CK || reflexivity.
  - destruct (clear_raw b size cap l a R) as (b' & a' & E & KK & V & CR). rewrite E. cbn [bind].
    destruct (Z.ltb_spec 0 wsize); [|lia]. cbn [need bind].
    destruct b as [b|]; [|lia]. destruct b' as [b'|]; [|destruct CR]. destruct CR as [C1 C2]. cbn [need bind].
    destruct V as (_ & _ & _ & _ & BL2 & _ & BS2).
    destruct (copy_range_t_stop wb b' a' wsize lw left) as (b2 & a2 & E2 & K2 & [O1 O2] & F); try lia; auto.
    { intros; apply BS2; lia. }
    rewrite E2. cbn [bind]. eexists; eexists; eexists; split; [reflexivity|]. cbn beta iota. split.
    + intros [_ S]. split; [|split; [reflexivity|cbn; intros; lia]].
      destruct (core_destroy_count k CK b2 size a2 size (Z.of_nat left) (Z.of_nat left) (Z.of_nat left)) as (a3 & ED & CNT).
      * lia.
      * intros j Hj. rewrite F by lia. discriminate.
      * exists a3. split; [exact ED|]. intros KS. cbn [leaked]. rewrite CNT; try lia.
        -- destruct (keeps_trans _ _ _ _ KK K2) as [KL _]. rewrite KL by exact KS. lia.
        -- intros j Hj. destruct (Z.lt_ge_cases j (Z.of_nat left)) as [X|X].
           ++ rewrite F by lia. cbn. split; [lia|reflexivity].
           ++ rewrite O2 by lia. rewrite (spare_live true) by (reflexivity || assumption || (apply BS2; lia)).
              split; [discriminate|lia].
    + intros NS _. cbn [destroy_state]. cbn [survives] in NS. apply core_destroy_undef with (Z.of_nat left); [exact CK|lia|].
      rewrite O2 by lia. apply C1; lia.
Qed.
End K.
