(** reserve, growing, shrinking, construction and copying. *)
Require Import ZArith List Bool Lia Permutation.
From Verif Require Import Base BaseProofs StrSpec StrModel StrProofs StrProofs2 StrProofs3 StrProofs4.
Import ListNotations.
Open Scope Z_scope.


Section Wide.
Context {ChT : CharType}.

Lemma ptr_add0 o : ptr_add (data o) 0 = data o.
Proof. unfold data. destruct (category o =? is_small); reflexivity. Qed.
Lemma splice_end (l u x : list (option Z)) : slen u = slen x -> splice (slen l) (slen x) x (l ++ u) = l ++ x.
Proof.
  intros E. pose proof (slen_nonneg l). pose proof (slen_nonneg x). apply lext.
  - rewrite slen_splice by (try rewrite slen_app; lia). rewrite !slen_app. lia.
  - rewrite slen_splice by (try rewrite slen_app; lia). rewrite !slen_app. intros i Hi.
    rewrite lget_splice by (try rewrite slen_app; lia). rewrite (lget_app l x) by lia.
    destruct (Z.ltb_spec i (slen l)).
    + rewrite lget_app by lia. destruct (Z.ltb_spec i (slen l)); [reflexivity|lia].
    + destruct (Z.ltb_spec i (slen l + slen x)); [reflexivity|lia].
Qed.
Lemma add_small a b : 0 <= a -> 0 <= b -> a + b <= 2 ^ 63 -> add64 a b = a + b.
Proof. intros. unfold add64. apply Z.mod_small. unfold M64. lia. Qed.
Lemma sub_small a b : 0 <= b <= a -> a <= 2 ^ 63 -> sub64 a b = a - b.
Proof. intros. unfold sub64. apply Z.mod_small. unfold M64. lia. Qed.
Lemma same_refl x : good x -> same_chars x x = true.
Proof.
  intros G. unfold same_chars. rewrite Z.eqb_refl. cbn [andb].
  induction G as [|y x (c & -> & _) _ IH]; [reflexivity|]. cbn [combine forallb]. rewrite Z.eqb_refl. exact IH.
Qed.
Lemma stake_all {A} (l : list A) n : slen l <= n -> stake n l = l.
Proof. intros H. unfold stake. apply firstn_all2. unfold slen in H. lia. Qed.
Lemma piece_0 {A} n (l : list A) : piece 0 n l = stake n l.
Proof. reflexivity. Qed.

Section S.
Variables (dbg arena : bool) (mal : nat -> Z -> bool) (ar N : Z).
Notation Inv := (StrProofs2.Inv dbg arena mal ar N).
Notation Keep := (StrProofs3.Keep dbg arena mal ar N).
Notation grown := (StrProofs4.grown dbg arena mal ar N).
Notation ready := (StrProofs4.ready dbg arena mal ar N).

Lemma Keep_refuse h o l R : Inv h ((o, l) :: R) -> Keep o l R BadAlloc (refuse h) o.
Proof.
  intros I. split; [reflexivity|]. split; [reflexivity|]. left. split; [reflexivity|]. apply Inv_refuse. exact I.
Qed.

Lemma reserve_spec h o l R n : Inv h ((o, l) :: R) -> 0 <= n < 2 * limit ->
  spec (reserve dbg arena mal n) h o (fun _ h' o' => ready l R n h' o' /\ (heapy o = true -> grown l R n h' o')) (Keep o l R).
Proof.
  intros I Hn. unfold reserve. apply spec_this.
  eapply spec_bnd with (Q1 := fun _ h' o' => ready l R n h' o' /\ (heapy o = true -> grown l R n h' o')).
  2:{ intros _ h' o' (G & G'). eapply capacity_assert; [exact G|]. split; assumption. }
  destruct (Inv_head _ _ _ _ _ _ _ _ _ I) as ([S|(k & cap & HR)] & A).
  - pose proof (small_heapy _ _ S) as H. rewrite (small_cat _ H).
    eapply spec_imp; [eapply reserve_small_spec; eassumption| |].
    + intros _ h' o' (G & _). split; [exact G|congruence].
    + intros e h' o' (-> & -> & ->). apply Keep_refuse. exact I.
  - rewrite (heap_cat _ _ _ _ _ HR). destruct (bk_kind k) as [|r] eqn:K; cbn [is_small is_medium is_large Z.eqb Pos.eqb].
    + eapply spec_imp; [eapply reserve_medium_spec; eassumption| |auto]. intros a0 h' o' G. split; [left|intros _]; exact G.
    + eapply spec_imp; [eapply reserve_large_spec; eassumption| |auto]. intros a0 h' o' G. split; [left|intros _]; exact G.
Qed.

(** ** expandNoinit *)
Definition expanded (l : list (option Z)) (R : pairs) (delta : Z) (p : ptr) (h' : heap) (o' : core) : Prop :=
  exists u, Inv h' ((o', l ++ u) :: R) /\ slen u = delta /\ p = ptr_add (data o') (slen l) /\ (0 < delta -> unique h' o').

Lemma expand_finish h o l R k cap n d E : n = slen l + d ->
  Inv h ((o, l) :: R) -> heap_rep h o l k cap -> sole k \/ n = slen l -> slen l <= n <= cap ->
  spec (let* c := capacity in
        let* _ := assertM dbg (n <=? c) in
        let* o1 := this in
        let* _ := assertM dbg ((category o1 =? is_medium) || (category o1 =? is_large)) in
        let* _ := put (set_size o1 n) in
        let* _ := write (PHeap (c_data o1) n) [Some 0] in
        let* o2 := this in
        let* _ := assertM dbg (size o2 =? n) in
        ret (PHeap (c_data o1) (slen l))) h o (expanded l R d) E.
Proof.
  intros Ed I HR U Hn. pose proof (slen_nonneg l) as L0.
  eapply spec_eq; [eapply capacity_heap; eassumption|]. apply spec_assert.
  { apply Z.leb_le. destruct U as [[-> | ->]| ->]; try (cbn; lia). destruct (bk_kind k) as [|r]; [lia|]. destruct (1 <? r); lia. }
  apply spec_this. apply spec_assert; [rewrite (heap_cat _ _ _ _ _ HR); destruct (bk_kind k); reflexivity|].
  apply spec_put. destruct (set_len _ _ _ _ _ h o l R k cap n I HR U ltac:(lia)) as (h' & l' & k' & W & I' & HR' & K' & EL & G & _).
  eapply spec_eq; [exact W|]. apply spec_this.
  apply spec_assert. { rewrite (rep_size h' _ l'); [apply Z.eqb_eq; exact EL|]. right. eauto. }
  apply spec_ret. destruct (prefix_app l l') as (u & -> & Lu); [lia|intros i Hi; apply G; lia|].
  exists u. split; [exact I'|]. split; [lia|]. split.
  - rewrite (data_heap _ (heap_heapy _ _ _ _ _ HR')). reflexivity.
  - intros HD. eapply sole_unique; [exact HR'|]. destruct U as [U|U]; [|lia]. destruct U as [U|U]; [left|right]; congruence.
Qed.

Lemma expand_spec h o l R delta eg : Inv h ((o, l) :: R) -> 0 <= delta -> slen l + delta < 2 * limit ->
  spec (expand_noinit dbg arena mal delta eg) h o (expanded l R delta) (Keep o l R).
Proof.
  intros I H0 H1. destruct (Inv_head _ _ _ _ _ _ _ _ _ I) as (RP & A). pose proof (slen_nonneg l) as L0.
  destruct (capacity_ok _ _ _ RP) as (c0 & C0 & HC0).
  unfold expand_noinit. eapply spec_eq; [exact C0|]. apply spec_this.
  apply spec_assert; [rewrite (rep_size _ _ _ RP); apply Z.leb_le; exact HC0|]. cbv zeta.
  destruct RP as [S|(k & cap & HR)].
  - pose proof (small_heapy _ _ S) as H. rewrite (small_cat _ H). cbn [is_small Z.eqb].
    pose proof S as (L & _ & _ & GS).
    eapply spec_eq; [apply small_size_ok; exact S|]. rewrite add_small by lia.
    destruct (negb (sso_off dbg arena) && (slen l + delta <=? max_small)) eqn:SO.
    + apply andb_prop in SO. destruct SO as (SO1 & SO2). apply Z.leb_le in SO2.
      assert (EO : sso_off dbg arena = false) by (destruct (sso_off dbg arena); [discriminate|reflexivity]).
      eapply spec_eq; [apply set_small_ok; lia|]. apply spec_ret.
      set (u := chars_from (fun i => Some (unit_at o i)) (slen l) delta).
      assert (Lu : slen u = delta) by (apply slen_chars; lia).
      assert (S' : small_rep (set_unit (set_unit o max_small (max_small - (slen l + delta))) (slen l + delta) 0) (l ++ u)).
      { apply small_rep_of; [lia|rewrite slen_app; lia|]. intros i Hi. rewrite lget_app by lia.
        destruct (Z.ltb_spec i (slen l)); [apply GS; lia|]. unfold u. rewrite lget_chars by lia. do 2 f_equal. lia. }
      exists u. split; [|split; [exact Lu|split]].
      * eapply Inv_small; try eassumption; [rewrite !set_unit_al; reflexivity|congruence].
      * rewrite (data_small _ (small_heapy _ _ S')). reflexivity.
      * intros _. left. exact (small_heapy _ _ S').
    + eapply spec_bnd2; [eapply reserve_small_spec; [exact I|exact H|]| |].
      { destruct eg; lia. }
      { intros e h' o' (-> & -> & ->). apply Keep_refuse. exact I. }
      intros _ h' o' (RD & _).
      assert (G : grown l R (slen l + delta) h' o').
      { destruct RD as [G|(_ & _ & L23 & EO)].
        - destruct G as (I' & k' & cap' & HR' & SL & LE). split; [exact I'|]. exists k', cap'. split; [exact HR'|]. split; [exact SL|].
          destruct eg; lia.
        - exfalso. rewrite EO in SO. cbn [negb andb] in SO. apply Z.leb_gt in SO. destruct eg; lia. }
      destruct G as (I' & k' & cap' & HR' & SL & LE).
      eapply expand_finish; try eassumption; [reflexivity|left; exact SL|lia].
  - pose proof (heap_cat _ _ _ _ _ HR) as CT. pose proof (heap_bound _ _ _ _ _ HR) as HB. pose proof HR as (B & LV & C1 & C2 & _).
    rewrite CT. replace ((match bk_kind k with Plain => 128 | Counted _ => 64 end) =? is_small) with false by (destruct (bk_kind k); reflexivity).
    rewrite C2. rewrite add_small by lia. eapply spec_eq; [exact C0|].
    pose proof (capacity_heap _ _ _ _ _ HR) as CE. rewrite C0 in CE.
    destruct (Z.ltb_spec c0 (slen l + delta)).
    + assert (C62 : c0 < limit). { injection CE as ->. destruct (bk_kind k) as [|r]; [lia|]. destruct (1 <? r); lia. }
      assert (X : add64 1 (mul64 c0 3 / 2) = 1 + c0 * 3 / 2).
      { assert (mul64 c0 3 = c0 * 3) as -> by (unfold mul64; apply Z.mod_small; unfold M64; lia).
        apply add_small; [lia|apply Z.div_pos; lia|]. Z.div_mod_to_equations. lia. }
      rewrite X. assert (0 <= c0 * 3 / 2 <= c0 * 2) by (Z.div_mod_to_equations; lia).
      eapply spec_bnd; [eapply reserve_spec; [exact I|destruct eg; lia]|].
      intros _ h' o' (_ & G). specialize (G (heap_heapy _ _ _ _ _ HR)). destruct G as (I' & k' & cap' & HR' & SL & LE).
      eapply expand_finish; try eassumption; [reflexivity|left; exact SL|destruct eg; lia].
    + apply spec_bret. injection CE as ->.
      eapply expand_finish; try eassumption.
      * reflexivity.
      * destruct (bk_kind k) as [|r] eqn:K; [left; left; assumption|].
        pose proof (refs_bound _ _ _ _ _ _ _ _ _ _ _ _ I HR K). destruct (Z.ltb_spec 1 r); [right; lia|]. left. right. rewrite K. f_equal. lia.
      * split; [lia|]. destruct (bk_kind k) as [|r]; [lia|]. destruct (1 <? r); lia.
Qed.

Lemma push_back_spec h o l R c : Inv h ((o, l) :: R) -> is_char c ->
  spec (push_back dbg arena mal c) h o (fun _ h' o' => Inv h' ((o', l ++ [Some c]) :: R)) (Keep o l R).
Proof.
  intros I Hc. destruct (Inv_head _ _ _ _ _ _ _ _ _ I) as (RP & A). pose proof (rep_bound _ _ _ RP) as HB.
  unfold push_back. eapply spec_bnd; [eapply expand_spec; [exact I|lia|lia]|].
  intros p h' o' (u & I' & Lu & -> & U). specialize (U ltac:(lia)).
  destruct (write_own _ _ _ _ _ h' o' (l ++ u) R (slen l) [Some c] I') as (h2 & o2 & W & I2 & _); try lia.
  - left. exact U.
  - constructor; [exists c; auto|constructor].
  - rewrite slen_app. change (slen [Some c]) with 1. lia.
  - eapply spec_ret_eq; [exact W|]. cbv beta. rewrite splice_end in I2 by (rewrite Lu; reflexivity). exact I2.
Qed.

(** ** Construction *)
Lemma src_range S p n x : src S p n x -> 0 <= n /\ slen x = n.
Proof. intros (A & B & _). auto. Qed.
Lemma assert_same_ok h o x q n : rep h o x -> read q n h o = Ret x h o -> slen x = n -> good x ->
  assert_same dbg q n h o = Ret tt h o.
Proof.
  intros RP RD E G. unfold assert_same. destruct dbg eqn:ED; [|reflexivity].
  pose proof (read_own h o x 0 n RP) as X. rewrite ptr_add0, piece_0 in X.
  unfold bnd, this. rewrite X by (pose proof (slen_nonneg x); lia). rewrite RD, stake_all by lia.
  unfold assertM. rewrite same_refl by assumption. reflexivity.
Qed.

Definition built (R : pairs) (x : list (option Z)) (h' : heap) (o' : core) : Prop :=
  Inv h' ((o', x) :: R) /\ unique h' o'.
Definition unbuilt (R : pairs) (e : exn) (h' : heap) : Prop := e = BadAlloc /\ h_refused h' = true /\ Inv h' R.

Lemma fresh_write dbg' h kf n p x o : bk_live kf = true -> bk_len kf = n + 1 -> 0 <= n -> slen x = n ->
  read p n (push h kf) o = Ret x (push h kf) o -> (forall b i, p = PHeap b i -> b <> nb h) ->
  exists k', (let* _ := (if 0 <? n then pod_copy dbg' p (PHeap (nb h) 0) n else ret tt) in
              fun h1 o1 => write (PHeap (nb h) n) [Some 0] h1 o1) (push h kf) o = Ret tt (push h k') o /\
    (exists km, (if 0 <? n then pod_copy dbg' p (PHeap (nb h) 0) n else ret tt) (push h kf) o = Ret tt (push h km) o /\
     forall t, write (PHeap (nb h) n) [Some 0] (push h km) t = Ret tt (push h k') t) /\
    bk_kind k' = bk_kind kf /\ bk_res k' = bk_res kf /\ bk_live k' = true /\ bk_len k' = n + 1 /\
    bk_at k' n = Some 0 /\ (forall i, 0 <= i < n -> lget x i = bk_at k' i).
Proof.
  intros LV LN Hn Lx RD NP.
  set (km := if 0 <? n then set_chars kf (over (bk_at kf) 0 x) else kf).
  assert (S1 : (if 0 <? n then pod_copy dbg' p (PHeap (nb h) 0) n else ret tt) (push h kf) o = Ret tt (push h km) o).
  { unfold km. destruct (Z.ltb_spec 0 n); [|reflexivity]. apply copy_push; auto. apply in_blk_ok; try assumption; lia. }
  assert (KM : bk_kind km = bk_kind kf /\ bk_res km = bk_res kf /\ bk_live km = true /\ bk_len km = n + 1).
  { unfold km. destruct (0 <? n); repeat split; assumption. }
  destruct KM as (M1 & M2 & M3 & M4).
  exists (set_chars km (over (bk_at km) n [Some 0])).
  assert (S2 : forall t, write (PHeap (nb h) n) [Some 0] (push h km) t = Ret tt (push h (set_chars km (over (bk_at km) n [Some 0]))) t).
  { intros t. apply write_push. apply in_blk_ok; try assumption; try lia; change (slen [Some 0]) with 1; lia. }
  split; [unfold bnd; rewrite S1; apply S2|]. split; [exists km; auto|].
  cbn [set_chars bk_kind bk_res bk_live bk_len bk_at]. repeat (split; [assumption|]). split.
  - rewrite over_at. change (slen [Some 0]) with 1. destruct (Z.leb_spec n n), (Z.ltb_spec n (n + 1)); try lia.
    cbn [andb]. rewrite Z.sub_diag. reflexivity.
  - intros i Hi. rewrite over_at. change (slen [Some 0]) with 1. destruct (Z.leb_spec n i); [lia|]. cbn [andb].
    unfold km. destruct (Z.ltb_spec 0 n); [|lia]. cbn [set_chars bk_at]. rewrite over_at.
    destruct (Z.leb_spec 0 i), (Z.ltb_spec i (0 + slen x)); try lia. cbn [andb]. f_equal. lia.
Qed.

Lemma init_core_spec h o R p n x : Inv h R -> c_al o = ar -> src R p n x -> good x -> n < 2 * limit ->
  spec (init_core dbg arena mal p n) h o (fun _ h' o' => built R x h' o') (fun e h' o' => unbuilt R e h').
Proof.
  intros I A S G Hn. destruct (src_range _ _ _ _ S) as (N0 & Lx).
  assert (NP : forall b i, p = PHeap b i -> b <> nb h).
  { intros b i E. pose proof (src_not _ _ _ _ _ _ _ _ _ _ I S b i E). lia. }
  unfold init_core. apply spec_this. rewrite (al_ok _ _ _ _ _ _ _ _ I A).
  eapply spec_bnd with (Q1 := fun _ h' o' => built R x h' o').
  2:{ intros _ h' o' (I' & U). apply spec_this. destruct (Inv_head _ _ _ _ _ _ _ _ _ I') as (RP & _).
      apply spec_assert; [rewrite (rep_size _ _ _ RP); apply Z.eqb_eq; exact Lx|].
      apply spec_if; intros _; [apply spec_ret; split; assumption|].
      eapply spec_ret_eq; [eapply assert_same_ok; try eassumption; eapply Inv_tail_src; eassumption|]. split; assumption. }
  destruct (negb (sso_off dbg arena) && (n <=? max_small)) eqn:SO.
  - apply andb_prop in SO. destruct SO as (SO1 & SO2). apply Z.leb_le in SO2.
    assert (EO : sso_off dbg arena = false) by (destruct (sso_off dbg arena); [discriminate|reflexivity]).
    set (o1 := if n =? 0 then o else set_units o 0 x).
    assert (W : (if n =? 0 then ret tt else pod_copy dbg p (PSelf 0) n) h o = Ret tt h o1).
    { unfold o1. destruct (Z.eqb_spec n 0); [reflexivity|]. unfold pod_copy.
      assert (V : overlaps p (PSelf 0) n = false) by (destruct p; [destruct S as (_ & _ & [])|reflexivity|reflexivity]).
      rewrite V. unfold assertM. cbn [negb]. rewrite andb_false_r. unfold bnd, ret. rewrite (read_src _ _ _ _ _ _ _ _ _ _ _ I S).
      cbn [write]. destruct (Z.leb_spec 0 0), (Z.leb_spec (0 + slen x) num_small); try lia. reflexivity. }
    unfold init_small. eapply spec_eq; [exact W|]. eapply spec_ret_eq; [apply set_small_ok; lia|].
    assert (S' : small_rep (set_unit (set_unit o1 max_small (max_small - n)) n 0) x).
    { apply small_rep_of; [lia|exact Lx|]. intros i Hi. unfold o1. destruct (Z.eqb_spec n 0); [lia|].
      rewrite set_units_at by (auto; lia). destruct (Z.leb_spec 0 i), (Z.ltb_spec i (0 + slen x)); try lia. cbn [andb]. f_equal. lia. }
    split; [|left; exact (small_heapy _ _ S')]. apply Inv_new_small; [exact I|exact S'| |congruence].
    rewrite !set_unit_al. unfold o1. destruct (n =? 0); [|rewrite set_units_al]; exact A.
  - destruct (Z.leb_spec n max_medium).
    + unfold init_medium. eapply spec_bnd2; [eapply alloc_spec; [apply room_plain|eassumption|eassumption]| |].
      { intros e h' o' (-> & -> & ->). split; [reflexivity|]. split; [reflexivity|]. apply Inv_refuse. exact I. }
      intros b h' o' (-> & -> & -> & HB). replace (1 + n) with (n + 1) by lia. rewrite bytes_back. replace (n + 1 - 1) with n by lia.
      destruct (fresh_write dbg h (fresh Plain ar (n + 1)) n p x o eq_refl eq_refl N0 Lx (read_src_push _ _ _ _ _ _ _ _ _ _ _ _ I S) NP)
        as (k' & _ & (km & W1 & W2) & K1 & K2 & K3 & K4 & K5 & K6).
      eapply spec_eq; [exact W1|]. apply spec_this, spec_put. eapply spec_ret_eq; [apply W2|].
      destruct (new_heap_rep dbg arena mal ar N h R (set_capacity (set_size (set_data o (nb h)) n) n is_medium) x k' n) as (HR & I');
        try assumption; try reflexivity; try (symmetry; exact Lx); try (rewrite Lx; (assumption || reflexivity)); try lia.
      { left. split; [exact K1|]. apply set_capacity_ok; [lia|left; reflexivity]. }
      split; [exact I'|]. eapply sole_unique; [exact HR|left; exact K1].
    + unfold init_large, create_from. apply spec_assoc. eapply spec_bnd2; [eapply create_spec; [exact I|exact A|lia]| |].
      { intros e h' o' (-> & -> & ->). split; [reflexivity|]. split; [reflexivity|]. apply Inv_refuse. exact I. }
      intros (b, c) h' o' (E & -> & -> & HB). injection E as -> ->.
      destruct (fresh_write dbg h (fresh (Counted 1) ar (n + 1)) n p x o eq_refl eq_refl N0 Lx (read_src_push _ _ _ _ _ _ _ _ _ _ _ _ I S) NP)
        as (k' & _ & (km & W1 & W2) & K1 & K2 & K3 & K4 & K5 & K6).
      apply spec_assoc. eapply spec_eq; [exact W1|]. apply spec_bret. apply spec_this, spec_put. eapply spec_ret_eq; [apply W2|].
      destruct (new_heap_rep dbg arena mal ar N h R (set_capacity (set_size (set_data o (nb h)) n) n is_large) x k' n) as (HR & I');
        try assumption; try reflexivity; try (symmetry; exact Lx); try (rewrite Lx; (assumption || reflexivity)); try lia.
      { right. split; [exact K1|]. apply set_capacity_ok; [lia|right; reflexivity]. }
      split; [exact I'|]. eapply sole_unique; [exact HR|right; exact K1].
Qed.

(** Exported characters. *)
Lemma small_ext o l off n : small_rep o l -> 0 <= off -> 0 <= n -> off + n <= slen l ->
  n <= slen (chars_from (fun i => Some (unit_at o i)) off (num_small - off)) /\
  stake n (chars_from (fun i => Some (unit_at o i)) off (num_small - off)) = piece off n l.
Proof.
  intros (L & _ & _ & G) H1 H2 H3. rewrite slen_chars by lia. split; [lia|]. apply lext.
  - rewrite slen_stake, slen_piece by (try rewrite slen_chars; lia). reflexivity.
  - rewrite slen_stake by (rewrite slen_chars; lia). intros i Hi. rewrite lget_stake, lget_chars, lget_piece by lia.
    symmetry. apply G. lia.
Qed.
Lemma src_export h S c l off n : Inv h S -> In (c, l) S -> 0 <= off -> 0 <= n -> off + n <= slen l ->
  src S (export c (ptr_add (data c) off)) n (piece off n l).
Proof.
  intros I X H1 H2 H3. split; [assumption|]. split; [apply slen_piece; assumption|].
  destruct (i_rep _ _ _ _ _ _ _ I c l X) as (RP & _). destruct (heapy c) eqn:H.
  - rewrite (data_heap _ H). cbn [ptr_add export Z.add]. split; [assumption|]. exists c, l. auto.
  - rewrite (data_small _ H). cbn [ptr_add export Z.add].
    destruct (small_ext c l off n (rep_small _ _ _ RP H) H1 H2 H3) as (A & B). split; [exact A|symmetry; exact B].
Qed.
Lemma sdrop_chars {A} (f : Z -> A) off n m : 0 <= m <= n -> sdrop m (chars_from f off n) = chars_from f (off + m) (n - m).
Proof.
  intros H. unfold sdrop, chars_from. rewrite skipn_map. 
  replace (Z.to_nat n) with (Z.to_nat m + Z.to_nat (n - m))%nat by lia.
  rewrite seq_app, skipn_app, skipn_all2 by (rewrite seq_length; lia). cbn [app].
  rewrite seq_length, Nat.sub_diag. cbn [skipn Nat.add].
  assert (G : forall k a, map (fun j => f (off + Z.of_nat j)) (seq (Z.to_nat m + a) k) = map (fun j => f (off + m + Z.of_nat j)) (seq a k)).
  { induction k; intros a; cbn [seq map]; [reflexivity|]. rewrite plus_n_Sm, IHk. f_equal. f_equal. lia. }
  specialize (G (Z.to_nat (n - m)) O). rewrite Nat.add_0_r in G. exact G.
Qed.
Lemma src_str h S c l off n : Inv h S -> In (c, l) S -> 0 <= off -> 0 <= n -> off + n <= slen l ->
  src S (ptr_add (str c) off) n (piece off n l).
Proof.
  intros I X H1 H2 H3. pose proof (src_export h S c l off n I X H1 H2 H3) as E.
  unfold str. destruct (i_rep _ _ _ _ _ _ _ I c l X) as (RP & _). destruct (heapy c) eqn:H.
  - rewrite (data_heap _ H) in *. exact E.
  - rewrite (data_small _ H) in *. cbn [ptr_add export Z.add] in *.
    pose proof (rep_small _ _ _ RP H) as (L & _). rewrite sdrop_chars by lia. cbn [Z.add]. rewrite ?Z.sub_0_r. exact E.
Qed.
Lemma src_str0 h S c l : Inv h S -> In (c, l) S -> src S (str c) (slen l) l.
Proof.
  intros I X. pose proof (src_export h S c l 0 (slen l) I X) as E. rewrite ptr_add0, piece_all in E.
  apply E; pose proof (slen_nonneg l); lia.
Qed.

(** Copying.  [rhs] is the head of the list. *)
Lemma copy_core_spec h o rhs l R : Inv h ((rhs, l) :: R) -> c_al o = ar -> good l ->
  (forall k r, heapy rhs = true -> blk h (c_data rhs) = Some k -> bk_kind k = Counted r -> r + 1 <= N) ->
  spec (copy_core dbg arena mal rhs) h o (fun _ h' o' => Inv h' ((o', l) :: (rhs, l) :: R) /\ (category rhs = 64 -> o' = rhs))
    (fun e h' o' => unbuilt ((rhs, l) :: R) e h').
Proof.
  intros I A G HN.
  assert (X : spec (let* o := this in
   let* _ := (if category rhs =? is_small then
                let* _ := put (set_ml o rhs) in
                let* o1 := this in
                assertM dbg ((category o1 =? is_small) && (size o1 =? size rhs))
              else if category rhs =? is_medium then copy_medium dbg arena mal rhs
              else if category rhs =? is_large then
                let* _ := put (set_ml o rhs) in
                let* _ := increment_refs (c_data rhs) in
                let* o1 := this in
                assertM dbg ((category o1 =? is_large) && (size o1 =? size rhs))
              else undef) in
   let* o1 := this in
   let* _ := assertM dbg (size o1 =? size rhs) in
   assert_same dbg (export rhs (data rhs)) (size o1)) h o (fun _ h' o' => Inv h' ((o', l) :: (rhs, l) :: R) /\ (category rhs = 64 -> o' = rhs))
    (fun e h' o' => unbuilt ((rhs, l) :: R) e h')).
  2:{ unfold copy_core. destruct arena; [exact X|]. eapply spec_noexc; [exact X|]. intros e h' o' (_ & F & _). exact F. }
  destruct (Inv_head _ _ _ _ _ _ _ _ _ I) as (RP & Ar). pose proof (rep_bound _ _ _ RP) as HB. pose proof (rep_size _ _ _ RP) as SZ.
  apply spec_this.
  eapply spec_bnd with (Q1 := fun _ h' o' => Inv h' ((o', l) :: (rhs, l) :: R) /\ (category rhs = 64 -> o' = rhs)).
  2:{ intros a0 h' o' (I' & CR). apply spec_this. destruct (Inv_head _ _ _ _ _ _ _ _ _ I') as (RP' & _).
      apply spec_assert; [rewrite SZ, (rep_size _ _ _ RP'); apply Z.eqb_refl|].
      eapply spec_ret_eq; [|split; [exact I'|exact CR]]. rewrite (rep_size _ _ _ RP'). eapply assert_same_ok; try eassumption; [|reflexivity].
      change (export rhs (data rhs)) with (str rhs).
      eapply read_src; [exact I'|]. eapply src_str0; [exact I'|right; left; reflexivity]. }
  rewrite set_ml_eq by congruence.
  destruct RP as [S|(k & cap & HR)].
  - pose proof (small_heapy _ _ S) as H. rewrite (small_cat _ H). cbn [is_small Z.eqb].
    apply spec_put, spec_this. apply spec_assert_end; [rewrite (small_cat _ H), !Z.eqb_refl; reflexivity|].
    split; [|reflexivity]. apply Inv_new_small; try assumption. intros EO. exact (i_off _ _ _ _ _ _ _ I EO rhs l (or_introl eq_refl) H).
  - pose proof (heap_cat _ _ _ _ _ HR) as CT. pose proof (heap_bound _ _ _ _ _ HR) as HB'. pose proof HR as (B & LV & C1 & C2 & C3 & C4 & C5 & C6).
    rewrite CT. destruct (bk_kind k) as [|r] eqn:K; cbn [is_small is_medium is_large Z.eqb Pos.eqb].
    + unfold copy_medium. rewrite C2. rewrite add_small by lia. pose proof (bytes_wrap (1 + slen l)) as V. unfold mul64. rewrite Z.mod_small by (unfold M64; lia). rewrite bytes_back. rewrite sub_small by lia. replace (1 + slen l - 1) with (slen l) by lia.
      eapply spec_bnd2; [eapply alloc_spec; [apply room_plain|exact I|exact A]| |].
      { intros e h' o' (-> & -> & ->). split; [reflexivity|]. split; [reflexivity|]. apply Inv_refuse. exact I. }
      intros b h' o' (-> & -> & -> & HBb). replace (1 + slen l) with (slen l + 1) by lia.
      apply spec_this, spec_put. set (kf := fresh Plain ar (slen l + 1)).
      eapply spec_eq.
      { apply (copy_push dbg h kf 0 (PHeap (c_data rhs) 0) (slen l + 1) (l ++ [Some 0])).
        - eapply read_heap0. apply heap_rep_push. exact HR.
        - apply slen_snoc.
        - apply in_blk_ok; try reflexivity; unfold kf, fresh; cbn [bk_len]; lia.
        - intros b' i E. injection E as <- _. pose proof (blk_range _ _ _ B). lia. }
      apply spec_this, spec_put, spec_this.
      set (k' := set_chars kf (over (bk_at kf) 0 (l ++ [Some 0]))).
      set (o2 := set_capacity (set_size (set_data o (nb h)) (slen l)) (slen l) is_medium).
      assert (C2' : has_cap o2 (slen l) 128) by (apply set_capacity_ok; [lia|left; reflexivity]).
      apply spec_assert_end; [rewrite (cat_medium o2 (slen l) C2'); reflexivity|]. split; [|discriminate].
      destruct (new_heap_rep dbg arena mal ar N h ((rhs, l) :: R) o2 l k' (slen l)) as (HR2 & I2); try assumption; try reflexivity; try lia; try exact I2.
      * cbn [k' set_chars bk_at kf fresh]. rewrite over_at, slen_snoc. destruct (Z.leb_spec 0 (slen l)), (Z.ltb_spec (slen l) (0 + (slen l + 1))); try lia.
        cbn [andb]. rewrite lget_snoc by lia. destruct (Z.ltb_spec (slen l - 0) (slen l)); [lia|reflexivity].
      * intros i Hi. cbn [k' set_chars bk_at kf fresh]. rewrite over_at, slen_snoc. destruct (Z.leb_spec 0 i), (Z.ltb_spec i (0 + (slen l + 1))); try lia.
        cbn [andb]. rewrite lget_snoc by lia. destruct (Z.ltb_spec (i - 0) (slen l)); [|lia]. f_equal. lia.
      * left. split; [reflexivity|exact C2'].
    + pose proof (refs_bound _ _ _ _ _ _ _ _ _ _ _ _ I HR K) as RB. pose proof (i_N _ _ _ _ _ _ _ I) as HNN. pose proof (HN k r (heap_heapy _ _ _ _ _ HR) B K) as HNk.
      apply spec_put. unfold increment_refs. apply spec_assoc.
      eapply spec_eq; [eapply refs_ok; eassumption|]. rewrite add_small by lia.
      eapply spec_eq; [eapply set_refs_ok; eassumption|]. apply spec_this.
      apply spec_assert_end; [rewrite CT, !Z.eqb_refl; reflexivity|].
      split; [|reflexivity]. eapply Inv_share; try eassumption; try reflexivity.
Qed.

(** ** Shrinking *)
Lemma Inv_good_stake n l : good l -> good (stake n l). Proof. apply good_stake. Qed.
Lemma stake_eq l l' n : 0 <= n <= slen l -> slen l' = n -> (forall i, 0 <= i < n -> lget l' i = lget l i) -> l' = stake n l.
Proof.
  intros H E G. apply lext; [rewrite slen_stake by lia; exact E|]. rewrite E. intros i Hi. rewrite lget_stake by lia. apply G. exact Hi.
Qed.
Lemma shrink_spec h o l R delta : Inv h ((o, l) :: R) -> good l -> 0 <= delta <= slen l ->
  spec (shrink dbg arena mal delta) h o (fun _ h' o' => Inv h' ((o', stake (slen l - delta) l) :: R) /\ (unique h o -> unique h' o')) (Keep o l R).
Proof.
  intros I G Hd. destruct (Inv_head _ _ _ _ _ _ _ _ _ I) as (RP & A). pose proof (rep_bound _ _ _ RP) as HB. pose proof RP as RP0.
  unfold shrink. apply spec_this.
  destruct RP as [S|(k & cap & HR)].
  - pose proof (small_heapy _ _ S) as H. rewrite (small_cat _ H). cbn [is_small Z.eqb].
    pose proof S as (L & _ & _ & GS).
    eapply spec_eq; [apply small_size_ok; exact S|]. apply spec_assert; [apply Z.leb_le; lia|].
    rewrite sub_small by lia. eapply spec_ret_eq; [apply set_small_ok; lia|].
    assert (S' : small_rep (set_unit (set_unit o max_small (max_small - (slen l - delta))) (slen l - delta) 0) (stake (slen l - delta) l)).
    { apply small_rep_of; [lia|apply slen_stake; lia|]. intros i Hi. rewrite lget_stake by lia. apply GS. lia. }
    split; [|intros _; left; exact (small_heapy _ _ S')].
    eapply Inv_small; try eassumption; [rewrite !set_unit_al; reflexivity|].
    intros EO. rewrite (i_off _ _ _ _ _ _ _ I EO o l (or_introl eq_refl) H). destruct (Z.to_nat (slen (@nil (option Z)) - delta)) eqn:E; unfold stake; rewrite E; reflexivity.
  - pose proof (heap_cat _ _ _ _ _ HR) as CT. pose proof (heap_bound _ _ _ _ _ HR) as HB'. pose proof HR as (B & LV & C1 & C2 & _).
    assert (SM : sole k -> spec (shrink_medium dbg delta) h o (fun _ h' o' => Inv h' ((o', stake (slen l - delta) l) :: R) /\ (unique h o -> unique h' o')) (Keep o l R)).
    { intros SL. unfold shrink_medium. apply spec_this. rewrite C2. apply spec_assert; [apply Z.leb_le; lia|].
      rewrite sub_small by lia. apply spec_put.
      destruct (set_len _ _ _ _ _ h o l R k cap (slen l - delta) I HR (or_introl SL) ltac:(lia)) as (h' & l' & k' & W & I' & HR' & K' & EL & GG & _).
      eapply spec_ret_eq; [exact W|]. rewrite <- (stake_eq l l' (slen l - delta)); [|lia|exact EL|intros i Hi; apply GG; lia].
      split; [exact I'|]. intros _. eapply sole_unique; [exact HR'|]. destruct SL as [SL|SL]; [left|right]; congruence. }
    rewrite CT. destruct (bk_kind k) as [|r] eqn:K; cbn [is_small is_medium is_large Z.eqb Pos.eqb]; [apply SM; left; exact K|].
    eapply spec_eq; [eapply refs_ok; eassumption|]. pose proof (refs_bound _ _ _ _ _ _ _ _ _ _ _ _ I HR K) as RB.
    destruct (Z.eqb_spec r 1) as [->|]; [apply SM; right; exact K|].
    rewrite C2. apply spec_assert; [apply Z.leb_le; lia|].
    assert (NU : forall P : Prop, unique h o -> P).
    { intros P U. destruct (unique_sole _ _ _ _ _ U HR) as [X|X]; rewrite K in X; [discriminate|]. injection X. intros. contradiction. }
    destruct (Z.eqb_spec delta 0).
    + apply spec_ret. rewrite stake_all by lia. split; [exact I|auto].
    + rewrite sub_small by lia.
      eapply spec_bnd with (Q1 := fun t h' o' => o' = o /\ built ((o, l) :: R) (stake (slen l - delta) l) h' t).
      { apply spec_build. eapply spec_imp; [eapply (init_core_spec h (blank (c_al o)) ((o, l) :: R) _ _ (stake (slen l - delta) l)); try exact I| |].
        - exact A.
        - rewrite <- piece_0. split; [lia|]. split; [apply slen_piece; lia|]. split; [lia|]. exists o, l.
          split; [left; reflexivity|]. split; [exact (heap_heapy _ _ _ _ _ HR)|]. split; [reflexivity|]. split; [lia|reflexivity].
        - apply good_stake. exact G.
        - lia.
        - intros a0 h' t' BT. split; [reflexivity|exact BT].
        - intros e h' t' (-> & F & I'). split; [reflexivity|]. split; [exact F|]. left. split; [reflexivity|exact I']. }
      intros t h' o' (-> & It & Ut). destruct (swap_destroy_ok dbg arena mal ar N _ _ _ _ _ _ It) as (h2 & E2 & I2 & _).
      eapply spec_ret_eq; [exact E2|]. split; [exact I2|intros U; apply (NU _ U)].
Qed.

(** ** resize *)
Lemma Keep_good_settled o l R e h' o' : Keep o l R e h' o' -> settled h' o'.
Proof. apply Keep_settled. Qed.
Lemma resize_spec h o l R n c : Inv h ((o, l) :: R) -> good l -> is_char c -> 0 <= n < limit ->
  spec (resize dbg arena mal n c) h o (fun _ h' o' => Inv h' ((o', stake n l ++ srep (n - slen l) (Some c)) :: R)) (Keep o l R).
Proof.
  intros I G Hc Hn. destruct (Inv_head _ _ _ _ _ _ _ _ _ I) as (RP & A). pose proof (rep_bound _ _ _ RP) as HB.
  unfold resize. eapply spec_guarded; [exact RP| |intros a h' o' I'; eapply Inv_settled; exact I'|intros e h' o' X; eapply Keep_settled; exact X].
  apply spec_size. rewrite (rep_size _ _ _ RP).
  eapply spec_bnd with (Q1 := fun _ h' o' => Inv h' ((o', stake n l ++ srep (n - slen l) (Some c)) :: R)).
  - destruct (Z.leb_spec n (slen l)).
    + replace (srep (n - slen l) (Some c)) with (@nil (option Z)).
      2:{ unfold srep. replace (Z.to_nat (n - slen l)) with O by lia. reflexivity. }
      rewrite app_nil_r. eapply spec_imp; [eapply shrink_spec; [exact I|exact G|lia]| |auto].
      intros _ h' o' (I' & _). replace (slen l - (slen l - n)) with n in I' by lia. exact I'.
    + eapply spec_bnd; [eapply expand_spec; [exact I|lia|lia]|]. intros p h' o' (u & I' & Lu & -> & U). specialize (U ltac:(lia)).
      destruct (fill_own _ _ _ _ _ h' o' (l ++ u) R (slen l) (n - slen l) c I' (or_introl U) Hc) as (h2 & o2 & W & I2 & _); try lia.
      { rewrite slen_app. lia. }
      eapply spec_ret_eq; [exact W|]. rewrite stake_all by lia.
      rewrite <- (splice_end l u (srep (n - slen l) (Some c))); rewrite slen_srep by lia; [exact I2|exact Lu].
  - intros a0 h' o' I'. cbv beta in I'. apply spec_size. destruct (Inv_head _ _ _ _ _ _ _ _ _ I') as (RP' & _).
    apply spec_assert_end; [|exact I']. apply Z.eqb_eq. rewrite (rep_size _ _ _ RP'), slen_app.
    destruct (Z_le_gt_dec n (slen l)).
    + rewrite slen_stake by lia. unfold srep. replace (Z.to_nat (n - slen l)) with O by lia. cbn. lia.
    + rewrite stake_all, slen_srep by lia. lia.
Qed.
End S.
End Wide.
