(** The three representations. *)
Require Import ZArith List Bool Lia.
From Verif Require Import Base BaseProofs StrSpec StrModel StrStatements StrProofs StrProofs2 StrProofs3.
Import ListNotations.
Open Scope Z_scope.


Section Wide.
Context {ChT : CharType}.

Lemma heap_decode o b n cap cat : 0 <= n < M64 -> 0 <= cap < limit -> cat = is_medium \/ cat = is_large ->
  let c := set_capacity (set_size (set_data o b) n) cap cat in
  category c = cat /\ size c = n /\ ml_capacity c = cap /\ c_data c = b.
Proof.
  intros Hn Hc Hcat c. pose proof (set_capacity_ok (set_size (set_data o b) n) cap cat Hc Hcat) as HC. fold c in HC.
  repeat split.
  - destruct Hcat as [-> | ->]; [apply (cat_medium c cap HC)|apply (cat_large c cap HC)].
  - rewrite (size_heap _ _ _ HC Hcat). reflexivity.
  - exact (ml_capacity_ok _ _ _ HC Hcat).
Qed.

Lemma small_reads h c l : small_rep c (map Some l) -> reads h c l.
Proof.
  intros S. pose proof (slen_nonneg l) as L0. destruct S as (S1 & S2 & S3 & S4). rewrite slen_map in *. assert (Z1 : size c = slen l) by (apply size_small; lia).
    assert (CT : category c = 0) by (apply (cat_small c (slen l)); lia).
    split; [exact Z1|]. unfold value, after_last, data. rewrite Z1, CT. cbn [is_small Z.eqb ptr_add read].
    destruct (Z.leb_spec 0 0), (Z.leb_spec 0 (slen l)), (Z.leb_spec (0 + slen l) num_small), (Z.leb_spec 0 (0 + slen l)), (Z.leb_spec (0 + slen l + 1) num_small); try lia. cbn [andb Z.leb Z.compare].
    split.
    + f_equal. apply lext; [rewrite slen_chars, slen_map by lia; reflexivity|]. rewrite slen_chars by lia. intros i Hi. rewrite lget_chars by lia. cbv beta. rewrite S4 by lia. reflexivity.
    + unfold chars_from. change (seq 0 (Z.to_nat 1)) with [O]. cbn [map Z.of_nat]. rewrite Z.add_0_r, Z.add_0_l, S3. reflexivity.
Qed.

Lemma small_decode h o l : Forall is_char l -> slen l <= max_small -> forall dbg,
  exists c, init_small dbg (PExt (map Some l)) (slen l) h o = Ret tt h c /\
    category c = is_small /\ reads h c l /\ data c = PSelf 0 /\ c_al c = c_al o.
Proof.
  intros B L dbg. pose proof (slen_nonneg l) as L0.
  set (o1 := if slen l =? 0 then o else set_units o 0 (map Some l)).
  assert (W : (if slen l =? 0 then ret tt else pod_copy dbg (PExt (map Some l)) (PSelf 0) (slen l)) h o = Ret tt h o1).
  { unfold o1. destruct (Z.eqb_spec (slen l) 0); [reflexivity|]. unfold pod_copy. cbn [overlaps negb].
    unfold assertM. rewrite andb_false_r. unfold bnd, ret. cbn [read]. rewrite slen_map.
    destruct (Z.leb_spec 0 (slen l)), (Z.leb_spec (slen l) (slen l)); try lia. cbn [andb].
    assert (E : stake (slen l) (map Some l) = map Some l) by (unfold stake, slen; rewrite Nat2Z.id, <- (map_length Some l), firstn_all; reflexivity).
    rewrite E. cbn [write]. rewrite slen_map. destruct (Z.leb_spec 0 0), (Z.leb_spec (0 + slen l) num_small); try lia. reflexivity. }
  set (c := set_unit (set_unit o1 max_small (max_small - slen l)) (slen l) 0).
  assert (S : small_rep c (map Some l)).
  { apply small_rep_of; [lia|apply slen_map|]. intros i Hi. unfold o1. destruct (Z.eqb_spec (slen l) 0); [lia|].
    rewrite set_units_at by (try apply good_map; try rewrite slen_map; auto; lia). rewrite slen_map.
    destruct (Z.leb_spec 0 i), (Z.ltb_spec i (0 + slen l)); try lia. cbn [andb]. f_equal. lia. }
  exists c. split; [|split; [|split; [|split]]].
  - unfold init_small, bnd. unfold bnd in W. rewrite W. apply set_small_ok. lia.
  - pose proof (small_heapy _ _ S) as X. unfold heapy in X. destruct (Z.eqb_spec (category c) is_small); [assumption|discriminate].
  - apply small_reads. exact S.
  - unfold data. pose proof (small_heapy _ _ S) as X. unfold heapy in X. destruct (category c =? is_small); [reflexivity|discriminate].
  - unfold c. rewrite !set_unit_al. unfold o1. destruct (slen l =? 0); [reflexivity|apply set_units_al].
Qed.

(** ** The word-wise copy *)
Lemma byte_word src i j : (forall k, is_char (src k)) -> 0 <= j < per_word -> unit_of (word_from src i) j = src (i + j).
Proof.
  intros B Hj. pose proof char_facts as F.
  assert (G : forall ks k0, (k0 < length ks)%nat ->
    unit_of (fold_right (fun k acc => src (i + Z.of_nat k) + base * acc) 0 ks) (Z.of_nat k0) = src (i + Z.of_nat (nth k0 ks O))).
  { induction ks as [|k ks IH]; intros [|k0] Hk; cbn [length fold_right nth] in *; try lia.
    - unfold unit_of. cbn [Z.of_nat]. rewrite Z.pow_0_r, Z.div_1_r. specialize (B (i + Z.of_nat k)). unfold is_char in B; fold base in B.
      rewrite (Z.mul_comm base), Z.mod_add by lia. apply Z.mod_small. lia.
    - specialize (B (i + Z.of_nat k)). unfold is_char in B; fold base in B. rewrite <- (IH k0) by lia. unfold unit_of.
      rewrite Nat2Z.inj_succ, Z.pow_succ_r by lia. rewrite <- Z.div_div by (try lia; apply Z.pow_pos_nonneg; lia).
      rewrite (Z.mul_comm base (fold_right _ _ _)), Z.div_add by lia. rewrite (Z.div_small (src (i + Z.of_nat k)) base) by lia. reflexivity. }
  unfold word_from. specialize (G (seq 0 (Z.to_nat per_word)) (Z.to_nat j)). rewrite seq_length, Z2Nat.id in G by lia.
  rewrite G by lia. rewrite seq_nth by lia. f_equal. lia.
Qed.
Lemma words_small src n o l : (forall k, is_char (src k)) -> 0 <= n <= max_small -> slen l = n -> (forall i, 0 <= i < n -> lget l i = Some (src i)) ->
  small_rep (init_small_words src n o) l.
Proof.
  intros B Hn L G. unfold init_small_words. cbv zeta. apply small_rep_of; [lia|exact L|].
  intros i Hi. rewrite G by lia. f_equal.
  set (w := (n * csize + 8 - 1) / 8).
  assert (W : 8 * w < n * csize + 8 /\ n * csize <= 8 * w) by (unfold w; pose proof (Z.div_mod (n * csize + 8 - 1) 8); pose proof (Z.mod_pos_bound (n * csize + 8 - 1) 8); lia).
  clearbody w. assert (M : forall i0 k, 0 <= k -> per_word * k <= i0 < per_word * k + per_word -> i0 mod per_word = i0 - per_word * k)
    by (intros i0 k Hk Hi0; symmetry; apply (Z.mod_unique _ _ k); lia).
  unfold unit_at.
  assert (V : n <= num_small - 1 /\ num_small = 3 * per_word /\ (w = 0 \/ 1 <= w) /\ (per_word < n -> 2 <= w) /\ (2 * per_word < n -> 3 <= w) /\ (0 < n -> 1 <= w)).
  { pose proof char_cases as [(C1 & C2 & C3 & C4 & _)|[(C1 & C2 & C3 & C4 & _)|(C1 & C2 & C3 & C4 & _)]]; rewrite C1 in W; rewrite C2, C3; rewrite C4 in Hn; Lia.lia. }
  destruct V as (V1 & V2 & _ & V3 & V4 & V5).
  destruct (Z.ltb_spec i per_word); [|destruct (Z.ltb_spec i (2 * per_word))].
  - destruct (Z.leb_spec 1 w); [|lia]. cbn [c_data]. rewrite (M i 0) by lia. rewrite byte_word by (auto; lia). f_equal. lia.
  - destruct (Z.leb_spec 1 w), (Z.leb_spec 2 w); try lia. cbn [c_size]. rewrite (M i 1) by lia. rewrite byte_word by (auto; lia). f_equal. lia.
  - destruct (Z.leb_spec 1 w), (Z.leb_spec 2 w), (Z.leb_spec 3 w); try lia. cbn [c_cap]. rewrite (M i 2) by lia. rewrite byte_word by (auto; lia). f_equal. lia.
Qed.

(** ** Which representation *)
Lemma bnd_inv {A B} (m : M A) (f : A -> M B) h o b h2 o2 : bnd m f h o = Ret b h2 o2 -> exists a h1 o1, m h o = Ret a h1 o1 /\ f a h1 o1 = Ret b h2 o2.
Proof. unfold bnd. destruct (m h o) as [a h1 o1| | | |]; try discriminate. intros E. exists a, h1, o1. auto. Qed.
Lemma put_inv o' h o u h1 o1 : put o' h o = Ret u h1 o1 -> h1 = h /\ o1 = o'.
Proof. unfold put. intros E. inversion E. auto. Qed.
Lemma this_inv h o u h1 o1 : this h o = Ret u h1 o1 -> u = o /\ h1 = h /\ o1 = o.
Proof. unfold this. intros E. inversion E. auto. Qed.
Lemma assertM_inv dbg c h o u h1 o1 : assertM dbg c h o = Ret u h1 o1 -> h1 = h /\ o1 = o.
Proof. unfold assertM. destruct (dbg && negb c); [discriminate|]. intros E. injection E as _ <- <-. auto. Qed.
Lemma read_inv p n h o l h1 o1 : read p n h o = Ret l h1 o1 -> h1 = h /\ o1 = o.
Proof.
  unfold read. destruct p as [off|b off|x].
  - destruct (_ && _); [|discriminate]. intros E. injection E as _ <- <-. auto.
  - destruct (blk h b); [|discriminate]. destruct (in_blk _ _ _); [|discriminate]. intros E. injection E as _ <- <-. auto.
  - destruct (_ && _); [|discriminate]. intros E. injection E as _ <- <-. auto.
Qed.
Lemma assert_same_inv dbg p n h o u h1 o1 : assert_same dbg p n h o = Ret u h1 o1 -> o1 = o.
Proof.
  unfold assert_same. destruct dbg; [|intros E; injection E as _ _ <-; reflexivity]. intros E.
  apply bnd_inv in E. destruct E as (a & ? & ? & E1 & E). apply this_inv in E1. destruct E1 as (-> & -> & ->).
  apply bnd_inv in E. destruct E as (l & ? & ? & E1 & E). apply read_inv in E1. destruct E1 as (-> & ->).
  apply bnd_inv in E. destruct E as (l' & ? & ? & E1 & E). apply read_inv in E1. destruct E1 as (-> & ->).
  apply assertM_inv in E. apply E.
Qed.
Lemma write_heap_inv b off l h o u h1 o1 : write (PHeap b off) l h o = Ret u h1 o1 -> o1 = o.
Proof. cbn [write]. destruct (blk h b); [|discriminate]. destruct (in_blk _ _ _); [|discriminate]. intros E. injection E as _ _ <-. reflexivity. Qed.
Lemma set_small_inv dbg n h o u h1 o1 : set_small_size dbg n h o = Ret u h1 o1 -> category o1 = is_small.
Proof.
  intros E. unfold set_small_size in E. apply bnd_inv in E. destruct E as (a & h' & o' & E1 & E). apply assertM_inv in E1. destruct E1 as (-> & ->).
  destruct (Z.ltb_spec n 0), (Z.ltb_spec max_small n); cbn [orb] in E; try discriminate E.
  apply bnd_inv in E. destruct E as (t & h' & o' & E1 & E). apply this_inv in E1. destruct E1 as (-> & -> & ->).
  apply bnd_inv in E. destruct E as (t & h' & o' & E1 & E). apply put_inv in E1. destruct E1 as (-> & ->).
  apply bnd_inv in E. destruct E as (t' & h' & o' & E1 & E). apply this_inv in E1. destruct E1 as (-> & -> & ->).
  apply assertM_inv in E. destruct E as (_ & ->). apply (cat_small _ n); [|lia].
  rewrite byte_set by lia. destruct (Z.eqb_spec n max_small); [lia|]. rewrite byte_set by lia. rewrite Z.eqb_refl. reflexivity.
Qed.
Lemma create_inv dbg arena mal n h o b c h1 o1 : create dbg arena mal n h o = Ret (b, c) h1 o1 -> c = n.
Proof.
  unfold create. intros E. apply bnd_inv in E. destruct E as (a & ? & ? & E1 & E). apply this_inv in E1. destruct E1 as (-> & -> & ->).
  destruct (arena && dbg && (c_al o =? 0)); [discriminate|]. destruct (M64 <=? n + 1); [discriminate|]. destruct (M64 <=? (n + 1) * csize + 8); [discriminate|].
  apply bnd_inv in E. destruct E as (b' & ? & ? & E1 & E). injection E. intros _ _ E2. replace ((n + 1) * csize + 8 - 8) with ((n + 1) * csize) in E2 by lia. rewrite bytes_back in E2. lia.
Qed.
Lemma init_kind dbg arena mal p n h o u h1 o1 : 0 <= n < limit -> init_core dbg arena mal p n h o = Ret u h1 o1 -> category o1 = kind_for dbg arena n.
Proof.
  intros Hn E. unfold init_core in E. apply bnd_inv in E. destruct E as (a & ? & ? & E1 & E). apply this_inv in E1. destruct E1 as (-> & -> & ->).
  destruct (arena && dbg && (c_al o =? 0)); [discriminate|].
  apply bnd_inv in E. destruct E as ([] & h2 & o2 & E1 & E).
  assert (K : category o2 = kind_for dbg arena n).
  { clear E. unfold kind_for. fold max_small max_medium. destruct (negb (sso_off dbg arena) && (n <=? max_small)).
    - unfold init_small in E1. apply bnd_inv in E1. destruct E1 as (x & ? & ? & _ & E1). eapply set_small_inv. exact E1.
    - destruct (n <=? max_medium).
      + unfold init_medium in E1. apply bnd_inv in E1. destruct E1 as (b & h3 & o3 & _ & E1).
        apply bnd_inv in E1. destruct E1 as (x & h4 & o4 & _ & E1).
        apply bnd_inv in E1. destruct E1 as (y & h5 & o5 & E2 & E1). apply this_inv in E2. destruct E2 as (-> & -> & ->).
        apply bnd_inv in E1. destruct E1 as (z & h6 & o6 & E2 & E1). apply put_inv in E2. destruct E2 as (-> & ->).
        apply write_heap_inv in E1. subst o2. rewrite bytes_back. apply (heap_decode o4 b n (1 + n - 1) is_medium); [unfold M64; lia|lia|left; reflexivity].
      + unfold init_large in E1. apply bnd_inv in E1. destruct E1 as ((b & c) & h3 & o3 & E2 & E1).
        unfold create_from in E2. apply bnd_inv in E2. destruct E2 as ((b' & c') & h4 & o4 & C & E2). apply create_inv in C.
        apply bnd_inv in E2. destruct E2 as (w & h5 & o5 & _ & E2). injection E2 as <- <- <- <-.
        apply bnd_inv in E1. destruct E1 as (y & h6 & o6 & E2 & E1). apply this_inv in E2. destruct E2 as (-> & -> & ->).
        apply bnd_inv in E1. destruct E1 as (z & h7 & o7 & E2 & E1). apply put_inv in E2. destruct E2 as (-> & ->).
        apply write_heap_inv in E1. subst o2 c'. apply (heap_decode o5 b' n n is_large); [unfold M64; lia|lia|right; reflexivity]. }
  rewrite <- K. apply bnd_inv in E. destruct E as (t & ? & ? & E2 & E). apply this_inv in E2. destruct E2 as (-> & -> & ->).
  apply bnd_inv in E. destruct E as (x & h3 & o3 & E2 & E). apply assertM_inv in E2. destruct E2 as (-> & ->).
  destruct (n =? 0); [injection E as _ _ <-; reflexivity|]. apply assert_same_inv in E. rewrite E. reflexivity.
Qed.

Lemma words_reads src n o l h : (forall k, is_char (src k)) -> 0 <= n <= max_small -> slen l = n ->
  (forall i, 0 <= i < n -> nth (Z.to_nat i) l 0 = src i) -> reads h (init_small_words src n o) l.
Proof.
  intros B Hn L G. assert (S : small_rep (init_small_words src n o) (map Some l)).
  { apply words_small; [exact B|exact Hn|rewrite slen_map; exact L|]. intros i Hi. rewrite <- G by exact Hi.
    unfold lget. rewrite (nth_indep _ None (Some 0)) by (rewrite map_length; unfold slen in L; lia). rewrite (map_nth Some). reflexivity. }
  eapply small_reads. exact S.
Qed.
End Wide.
