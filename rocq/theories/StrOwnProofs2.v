(** Inserting a piece of an inline string that outgrows its object. *)
Require Import ZArith List Bool Lia Permutation.
From Verif Require Import Base BaseProofs StrSpec StrModel StrStatements StrOwnStatements StrProofs StrProofs2 StrProofs3 StrProofs4 StrProofs5 StrProofs6 StrProofs7 StrQuiet StrProofs8 StrProofs9 StrProofs10 StrProofs11 StrProofs12 StrProofs13 StrProofs14 StrStreamProofs StrCases StrGrowStatements StrGrowProofs StrOwnProofs.
Import ListNotations.
Open Scope Z_scope.


Section Wide.
Context {ChT : CharType}.

Lemma slen_object a n : slen (object_bytes a n) = num_small. Proof. destruct ChT; reflexivity. Qed.
Lemma le64_bytes w : Forall is_char (le64 w).
Proof. apply Forall_forall. intros x H. apply in_map_iff in H. destruct H as (i & <- & _). unfold is_char. apply Z.mod_pos_bound. pose proof char_facts as F. unfold base in F. lia. Qed.
Lemma object_bytes_ok a n : Forall is_char (object_bytes a n).
Proof. unfold object_bytes. rewrite !Forall_app. repeat split; apply le64_bytes. Qed.
Lemma object_chars o a n : c_data o = a -> c_size o = n -> c_cap o = 2 * (23 / csize) + 128 * 2 ^ 56 ->
  chars_from (fun i => Some (unit_at o i)) 0 num_small = map Some (object_bytes a n).
Proof.
  destruct ChT; intros D S C; unfold chars_from; [change (Z.to_nat (@num_small Char8)) with 24%nat|change (Z.to_nat (@num_small Char16)) with 12%nat|change (Z.to_nat (@num_small Char32)) with 6%nat]; unfold unit_at; cbn [seq map]; rewrite D, S, C; reflexivity.
Qed.
Lemma read_object h o off k : 0 <= off -> 0 <= k -> off + k <= num_small -> c_cap o = 2 * (23 / csize) + 128 * 2 ^ 56 ->
  read (PSelf off) k h o = Ret (piece off k (map Some (object_bytes (c_data o) (c_size o)))) h o.
Proof.
  intros Ho Hk Hl C. unfold read. replace ((0 <=? off) && (0 <=? k) && (off + k <=? num_small)) with true by (symmetry; rewrite !andb_true_iff, !Z.leb_le; lia).
  f_equal. rewrite <- (object_chars o _ _ eq_refl eq_refl C). apply lext.
  - rewrite slen_chars by lia. rewrite slen_piece; [reflexivity|lia|lia|rewrite slen_chars by lia; lia].
  - rewrite slen_chars by lia. intros i Hi. rewrite lget_chars by lia. rewrite lget_piece by lia. rewrite lget_chars by lia. f_equal. 
Qed.

Section S.
Variables (dbg arena : bool) (mal : nat -> Z -> bool) (ar N : Z).
Notation INV := (StrProofs2.Inv dbg arena mal ar N).
Lemma reserve_small_cap n h o u h' o' : sso_off dbg arena = false -> max_small < n <= max_medium -> reserve_small dbg arena mal n h o = Ret u h' o' ->
  c_data o' = Z.of_nat (length (h_blocks h)) /\ c_cap o' = Z.lor n (Z.shiftl 128 56).
Proof.
  intros SO Hn E. unfold reserve_small in E. inv1 E. apply this_inv in X. destruct X as (-> & -> & ->). inv1 E. apply assertM_inv in X. destruct X as (-> & ->).
  rewrite SO in E. cbn [negb andb] in E. 
  replace (n <=? max_small) with false in E by (symmetry; apply Z.leb_gt; lia). replace (n <=? max_medium) with true in E by (symmetry; apply Z.leb_le; lia).
  inv1 E. assert (a0 = Z.of_nat (length (h_blocks h))).
  { unfold alloc in X. destruct (arena && dbg && (c_al o =? 0)); [discriminate|]. destruct (mal _ _); [|discriminate]. injection X as <- _ _. reflexivity. }
  subst a0. inv1 E. inv1 E. inv1 E. apply this_inv in X2. destruct X2 as (-> & -> & ->). apply put_inv in E. destruct E as (_ & ->). rewrite bytes_back. replace (1 + n - 1) with n by lia. split; reflexivity.
Qed.
Lemma expand_small_cap h o l n p h' o' : small_rep o l -> sso_off dbg arena = false -> max_small < slen l + n <= 2 * max_small -> 0 <= n ->
  expand_noinit dbg arena mal n true h o = Ret p h' o' ->
  c_data o' = Z.of_nat (length (h_blocks h)) /\ c_cap o' = 2 * (23 / csize) + 128 * 2 ^ 56.
Proof.
  intros S SO Hn Hp E. pose proof (slen_nonneg l) as L0. pose proof (small_heapy _ _ S) as H.
  unfold expand_noinit in E. inv1 E. rewrite capacity_small in X by exact H. injection X as <- <- <-. inv1 E. apply this_inv in X. destruct X as (-> & -> & ->). inv1 E. apply assertM_inv in X. destruct X as (-> & ->).
  cbv zeta in E. rewrite (small_cat _ H) in E. cbn [is_small Z.eqb] in E.
  inv1 E. rewrite (small_size_ok _ _ _ _ S) in X. injection X as <- <- <-. rewrite add_small in E by lia.
  rewrite SO in E. cbn [negb andb] in E. replace (slen l + n <=? max_small) with false in E by (symmetry; apply Z.leb_gt; lia).
  inv1 E. replace (Z.max (slen l + n) (2 * max_small)) with (2 * max_small) in X by lia.
  pose proof (reserve_small_cap (2 * @max_small ChT) _ _ _ _ _ SO ltac:(lia) X) as (D & C). 
  inv1 E. pose proof (pure_capacity h1 o1) as PC. rewrite X0 in PC. destruct PC as (-> & ->).
  inv1 E. apply assertM_inv in X1. destruct X1 as (-> & ->). inv1 E. apply this_inv in X1. destruct X1 as (-> & -> & ->). inv1 E. apply assertM_inv in X1. destruct X1 as (-> & ->).
  inv1 E. apply put_inv in X1. destruct X1 as (-> & ->). inv1 E. cbn [write] in X1. destruct (blk h1 (c_data o1)) as [kk|] in X1; [|discriminate].
  match type of X1 with (if ?b then _ else _) = _ => destruct b; [|discriminate] end. injection X1 as _ _ <-.
  inv1 E. apply this_inv in X1. destruct X1 as (-> & -> & ->). inv1 E. apply assertM_inv in X1. destruct X1 as (-> & ->). injection E as _ _ <-.
  cbn. split; [exact D|]. rewrite C. destruct ChT; reflexivity.
Qed.
Lemma insert_at_outgrows h o l R pos off n : INV h ((o, l) :: R) -> good l -> heapy o = false -> sso_off dbg arena = false -> 0 <= pos <= slen l -> 0 <= off -> 0 <= n -> off + n <= slen l ->
  max_small < slen l + n ->
  let x := piece off n (map Some (object_bytes (Z.of_nat (length (h_blocks h))) (slen l + n))) in
  spec (insert_at dbg arena mal pos (ptr_add (data o) off) n) h o (fun _ h' o' => INV h' ((o', splice pos 0 x l) :: R)) (StrProofs3.Keep dbg arena mal ar N o l R).
Proof.
  intros I Gl HY SO Hp Ho Hn Hl LT x. pose proof (len_ok _ _ _ _ _ _ _ _ _ I) as LO.
  destruct (Inv_head _ _ _ _ _ _ _ _ _ I) as (RP & _). pose proof (rep_small _ _ _ RP HY) as S. pose proof (proj1 S) as L23.
  unfold insert_at. eapply guard_keep; [exact I|]. apply spec_size. rewrite (size_ok _ _ _ _ _ _ _ _ _ I).
  apply spec_assert; [apply andb_true_intro; split; apply Z.leb_le; lia|].
  eapply spec_bnd; [eapply spec_and; [eapply expand_spec; [exact I|lia|lia]|intros p h' o' E; eapply expand_small_cap; [exact S|exact SO| |exact Hn|exact E]; lia]|].
  intros q h' o' ((u & I' & Lu & _ & U') & (D & C)).
  assert (n = 0 \/ 0 < n) as [N0|N0] by lia; [exfalso; lia|]. specialize (U' N0).
  eapply begin_then; [exact I'|]. intros h2 o2 I2 U2 SE. destruct (SE U') as (-> & ->). clear SE.
  destruct (Inv_head _ _ _ _ _ _ _ _ _ I2) as (RP2 & _).
  assert (HY2 : heapy o' = true). { destruct RP2 as [S2|(kk & cp & HR)]; [|eapply heap_heapy; exact HR]. exfalso. pose proof (proj1 S2) as F. rewrite slen_app in F. lia. }
  destruct (rep_heapy _ _ _ RP2 HY2) as (kk & cp & HR). pose proof HR as (_ & _ & _ & SZ & _). rewrite slen_app, Lu in SZ.
  assert (RD : read (ptr_add (data o') pos) (slen l - pos) h' o' = Ret (piece pos (slen l - pos) l) h' o').
  { rewrite (own_read _ _ _ _ _ _ _ _ _ pos (slen l - pos) I2) by (slens; lia). f_equal. lists. }
  destruct (move_own _ _ _ _ _ h' o' (l ++ u) R (pos + n) _ _ _ I2 (or_introl U2) RD) as (h3 & o3 & W & I3 & D3 & _ & U3 & _);
    [slens; lia|apply good_piece; exact Gl|lia|slens; lia|].
  eapply spec_eq; [exact W|]. rewrite <- !(data_eq o' o3 D3).
  assert (o3 = o') as ->.
  { apply move_write in W. destruct W as (y & W). rewrite (data_heap _ HY2) in W. cbn [ptr_add write] in W. destruct (blk h' (c_data o')); [|discriminate].
    match type of W with (if ?b then _ else _) = _ => destruct b; [|discriminate] end. injection W as _ <-. reflexivity. }
  rewrite (data_small _ HY). cbn [ptr_add]. rewrite Z.add_0_l.
  pose proof (read_object h3 o' off n Ho Hn ltac:(lia) C) as RD3. rewrite D, SZ in RD3. fold x in RD3.
  assert (LX : slen x = n) by (unfold x; apply slen_piece; [lia|lia|rewrite slen_map, slen_object; lia]).
  assert (GX : good x) by (apply good_piece, good_map, object_bytes_ok).
  destruct (move_own _ _ _ _ _ h3 o' _ R pos _ n _ I3 (or_introl (U3 U2)) RD3 LX GX) as (h4 & o4 & W4 & I4 & _); [lia|slens; lia|].
  eapply spec_ret_eq; [exact W4|]. cbv beta. rewrite insert_list in I4 by (slens; lia). exact I4.
Qed.
Lemma insert_outgrows_spec h o l R pos off n : INV h ((o, l) :: R) -> good l -> heapy o = false -> sso_off dbg arena = false -> 0 <= pos <= slen l -> 0 <= off -> 0 <= n -> off + n <= slen l ->
  max_small < slen l + n ->
  let x := piece off n (map Some (object_bytes (Z.of_nat (length (h_blocks h))) (slen l + n))) in
  spec (insert dbg arena mal pos (ptr_add (data o) off) n) h o (fun _ h' o' => INV h' ((o', splice pos 0 x l) :: R)) (StrProofs6.Bad dbg arena mal ar N R).
Proof.
  intros I Gl HY SO Hp Ho Hn Hl LT x. pose proof (len_ok _ _ _ _ _ _ _ _ _ I) as LO.
  unfold insert. apply spec_size. rewrite (size_ok _ _ _ _ _ _ _ _ _ I). unfold enforce.
  replace (pos <=? slen l) with true by (symmetry; apply Z.leb_le; lia). apply spec_bret.
  eapply begin_then; [exact I|]. intros h' o' I' U' SE. destruct (SE (or_introl HY)) as (-> & ->).
  eapply spec_bnd; [eapply spec_Keep_Bad; [exact Gl|eapply insert_at_outgrows; try eassumption; auto]|]. intros a h2 o2 I2. apply spec_ret. exact I2.
Qed.
End S.
Lemma reach_insert_outgrows dbg arena mal ar (MS : mal_sane mal) (AO : ar_ok dbg arena ar) n s ss i c l pos off k : StrStatements.reach dbg arena mal ar n s -> short n -> sees s ss ->
  sget (s_objs s) i = Some c -> sget ss i = Some l -> category c = is_small ->
  0 <= pos <= slen l -> 0 <= off -> 0 <= k -> off + k <= slen l -> max_small < slen l + k ->
  exists addr, gives (StrStatements.step dbg arena mal ar s (SOn i (UInsert pos (Piece i off k)))) (sset i (Some (splice pos 0 (piece off k (object_bytes addr (slen l + k))) l)) ss).
Proof.
  intros H SH SE Ec El CT Hp Ho Hk Hl LT. pose proof (reach_bytes dbg arena mal ar MS AO _ _ _ _ _ H SH SE El) as BL.
  exists (Z.of_nat (length (h_blocks (clean (s_heap s))))).
  eapply reach_own; try eassumption; [apply bytes_splice; [exact BL|apply bytes_piece, object_bytes_ok]|].
  intros R IR GL. rewrite map_splice, map_piece.
  assert (HY : heapy c = false) by (unfold heapy; rewrite CT; reflexivity).
  assert (SO : sso_off dbg arena = false).
  { destruct (sso_off dbg arena) eqn:SO; [|reflexivity]. exfalso. pose proof (i_off _ _ _ _ _ _ _ IR SO _ _ (or_introl eq_refl) HY) as F. apply map_eq_nil in F. subst l. rewrite slen_nil in *. lia. }
  rewrite <- (slen_map (@Some Z) l). eapply insert_outgrows_spec; try eassumption; rewrite ?slen_map; lia.
Qed.

(** ** On an arena the buffer that was too small stays as it was *)
Section A.
Variables (dbg : bool) (mal : nat -> Z -> bool) (ar N : Z).
Hypothesis NZ : ar <> 0.
Notation INV := (StrProofs2.Inv dbg true mal ar N).
Lemma alloc_spares kd n h o a h' o' b k : blk h b = Some k -> alloc dbg true mal kd n h o = Ret a h' o' -> blk h' b = Some k /\ o' = o /\ a <> b.
Proof.
  intros B E. unfold alloc in E. destruct (true && dbg && (c_al o =? 0)); [discriminate|]. destruct (mal (h_calls h) n); [|discriminate]. injection E as <- <- <-.
  split; [exact (blk_push_old h _ _ _ B)|]. split; [reflexivity|]. intros <-. unfold blk in B. destruct (Z.ltb_spec (Z.of_nat (length (h_blocks h))) 0); [discriminate|].
  rewrite Nat2Z.id in B. assert (nth_error (h_blocks h) (length (h_blocks h)) <> None) as F by congruence. apply nth_error_Some in F. lia.
Qed.
Lemma write_spares c i l h o u h' o' b : c <> b -> write (PHeap c i) l h o = Ret u h' o' -> blk h' b = blk h b /\ o' = o.
Proof.
  intros NE E. cbn [write] in E. destruct (blk h c) as [kc|] eqn:BC; [|discriminate]. destruct (in_blk kc i (slen l)); [|discriminate]. injection E as _ <- <-.
  split; [|reflexivity]. rewrite (blk_upd _ _ _ _ _ BC). destruct (Z.eqb_spec c b); [congruence|reflexivity].
Qed.
Lemma pure_same {A} (m : M A) h o a h' o' : pure m -> m h o = Ret a h' o' -> h' = h /\ o' = o.
Proof. intros P E. pose proof (P h o) as X. rewrite E in X. exact X. Qed.
Lemma move_spares c cur n h o a h' o' b k : blk h b = Some k -> move_block dbg true mal c cur n h o = Ret a h' o' -> blk h' b = Some k /\ o' = o /\ a <> b.
Proof.
  intros B E. unfold move_block, heap_of in E. apply bnd_inv in E. destruct E as (h0 & h1 & o1 & E1 & E). injection E1 as <- <- <-.
  destruct (blk h c) as [kc|]; [|discriminate]. destruct (in_blk kc 0 cur); [|discriminate].
  inv1 E. destruct (alloc_spares _ _ _ _ _ _ _ _ _ B X) as (B1 & -> & NE). inv1 E. destruct (pure_same _ _ _ _ _ _ (pure_read _ _) X0) as (-> & ->).
  inv1 E. destruct (write_spares _ _ _ _ _ _ _ _ _ NE X1) as (B2 & ->). injection E as <- <- <-. rewrite B2. auto.
Qed.
Lemma smart_spares hdr c cs cc nc h o a h' o' b k : c_al o = ar -> blk h b = Some k -> smart_realloc dbg true mal hdr c cs cc nc h o = Ret a h' o' -> blk h' b = Some k /\ o' = o /\ a <> b.
Proof.
  intros AL B E. unfold smart_realloc in E. inv1 E. apply this_inv in X. destruct X as (-> & -> & ->). inv1 E. apply assertM_inv in X. destruct X as (-> & ->).
  rewrite AL in E. replace (ar =? 0) with false in E by (symmetry; apply Z.eqb_neq; exact NZ). rewrite andb_false_r in E.
  inv1 E. destruct (move_spares _ _ _ _ _ _ _ _ _ _ B X) as (B1 & -> & NE). inv1 E. injection X0 as <- <- <-. injection E as <- <- <-. auto.
Qed.
Lemma reallocate_spares c cur cap n h o a h' o' b k : c_al o = ar -> blk h b = Some k -> reallocate dbg true mal c cur cap n h o = Ret a h' o' -> blk h' b = Some k /\ o' = o /\ fst a <> b.
Proof.
  intros AL B E. unfold reallocate in E. inv1 E. apply assertM_inv in X. destruct X as (-> & ->). destruct (M64 <=? n + 1); [discriminate|]. cbv zeta. destruct (M64 <=? (n + 1) * csize + 8); [discriminate|].
  inv1 E. destruct (pure_same _ _ _ _ _ _ (pure_refs _) X) as (-> & ->). inv1 E. apply assertM_inv in X0. destruct X0 as (-> & ->).
  inv1 E. destruct (smart_spares _ _ _ _ _ _ _ _ _ _ _ _ AL B X0) as (B1 & -> & NE). inv1 E. destruct (pure_same _ _ _ _ _ _ (pure_refs _) X1) as (-> & ->).
  inv1 E. apply assertM_inv in X2. destruct X2 as (-> & ->). injection E as <- <- <-. auto.
Qed.
Lemma create_spares n h o a h' o' b k : blk h b = Some k -> create dbg true mal n h o = Ret a h' o' -> blk h' b = Some k /\ o' = o /\ fst a <> b.
Proof.
  intros B E. unfold create in E. inv1 E. apply this_inv in X. destruct X as (-> & -> & ->). destruct (_ && _); [discriminate|]. destruct (M64 <=? n + 1); [discriminate|]. cbv zeta. destruct (M64 <=? (n + 1) * csize + 8); [discriminate|].
  inv1 E. destruct (alloc_spares _ _ _ _ _ _ _ _ _ B X) as (B1 & -> & NE). injection E as <- <- <-. auto.
Qed.
Lemma copy_spares p c i n h o u h' o' b : c <> b -> pod_copy dbg p (PHeap c i) n h o = Ret u h' o' -> blk h' b = blk h b /\ o' = o.
Proof.
  intros NE E. unfold pod_copy in E. inv1 E. apply assertM_inv in X. destruct X as (-> & ->). destruct (overlaps p (PHeap c i) n); [discriminate|].
  inv1 E. destruct (pure_same _ _ _ _ _ _ (pure_read _ _) X) as (-> & ->). eapply write_spares; eassumption.
Qed.
Lemma reserve_small_spares n h o u h' o' b k : max_medium < n -> blk h b = Some k -> reserve_small dbg true mal n h o = Ret u h' o' -> blk h' b = Some k /\ c_al o' = c_al o /\ c_data o' <> b.
Proof.
  intros Hn B E. unfold reserve_small in E. inv1 E. apply this_inv in X. destruct X as (-> & -> & ->). inv1 E. apply assertM_inv in X. destruct X as (-> & ->).
  replace (n <=? max_small) with false in E by (symmetry; apply Z.leb_gt; lia). rewrite andb_false_r in E. replace (n <=? max_medium) with false in E by (symmetry; apply Z.leb_gt; lia).
  inv1 E. destruct (create_spares _ _ _ _ _ _ _ _ B X) as (B1 & -> & NE). destruct a0 as (nb, c). cbn [fst] in NE.
  inv1 E. destruct (pure_same _ _ _ _ _ _ (pure_small_size _) X0) as (-> & ->). inv1 E. destruct (copy_spares _ _ _ _ _ _ _ _ _ _ NE X1) as (B2 & ->).
  inv1 E. apply this_inv in X2. destruct X2 as (-> & -> & ->). inv1 E. apply put_inv in X2. destruct X2 as (-> & ->).
  inv1 E. destruct (pure_same _ _ _ _ _ _ pure_capacity X2) as (-> & ->). apply assertM_inv in E. destruct E as (-> & ->). rewrite B2. cbn. auto.
Qed.
Lemma init_default_keeps h al h' o' u : init_default dbg true h (blank al) = Ret u h' o' -> h' = h /\ c_al o' = al.
Proof.
  intros E. unfold init_default in E. inv1 E. apply this_inv in X. destruct X as (-> & -> & ->). cbn [c_al blank] in E. destruct (_ && _); [discriminate|].
  unfold set_small_size in E. inv1 E. apply assertM_inv in X. destruct X as (-> & ->). destruct (_ || _); [discriminate|]. inv1 E. apply this_inv in X. destruct X as (-> & -> & ->).
  inv1 E. apply put_inv in X. destruct X as (-> & ->). inv1 E. apply this_inv in X. destruct X as (-> & -> & ->). apply assertM_inv in E. destruct E as (-> & ->). split; [reflexivity|]. rewrite !set_unit_al. reflexivity.
Qed.
Lemma reserve_medium_spares n h o u h' o' b k : c_al o = ar -> ml_capacity o < n -> blk h b = Some k -> reserve_medium dbg true mal n h o = Ret u h' o' -> blk h' b = Some k /\ c_data o' <> b.
Proof.
  intros AL LT B E. unfold reserve_medium in E. inv1 E. apply this_inv in X. destruct X as (-> & -> & ->). inv1 E. apply assertM_inv in X. destruct X as (-> & ->).
  replace (n <=? ml_capacity o) with false in E by (symmetry; apply Z.leb_gt; lia). destruct (Z.leb_spec n max_medium) as [L|L].
  - inv1 E. destruct (smart_spares _ _ _ _ _ _ _ _ _ _ _ _ AL B X) as (B1 & -> & NE). inv1 E. apply this_inv in X0. destruct X0 as (-> & -> & ->). apply put_inv in E. destruct E as (-> & ->). cbn. auto.
  - inv1 E. unfold build in X. destruct (init_default dbg true h (blank (c_al o))) as [x h2 t|e h2 t|h2| |h2] eqn:EI; try discriminate. apply init_default_keeps in EI. destruct EI as (-> & AT). injection X as <- <- <-.
    inv1 E. destruct a0 as (u0, t1). unfold on in X.
    match type of X with match ?m h t with _ => _ end = _ => destruct (m h t) as [x1 h3 t2|e h3 t2|h3| |h3] eqn:EM; try discriminate end; [|destruct (destroy dbg true t2 h3 o); discriminate].
    injection X as _ -> <- <-. inv1 EM. destruct (reserve_small_spares _ _ _ _ _ _ _ _ L B X) as (B1 & A1 & NE). inv1 EM. destruct (pure_same _ _ _ _ _ _ pure_capacity X0) as (-> & ->).
    inv1 EM. apply assertM_inv in X1. destruct X1 as (-> & ->). inv1 EM. apply this_inv in X1. destruct X1 as (-> & -> & ->). inv1 EM. apply put_inv in X1. destruct X1 as (-> & ->).
    destruct (copy_spares _ _ _ _ _ _ _ _ _ _ NE EM) as (B2 & ->).
    inv1 E. apply put_inv in X1. destruct X1 as (-> & ->). inv1 E. destruct (pure_same _ _ _ _ _ _ pure_capacity X1) as (-> & ->). inv1 E. apply assertM_inv in X2. destruct X2 as (-> & ->).
    unfold destroy in E. cbn [c_al set_ml set_size] in E. rewrite A1, AT, AL in E. replace (ar =? 0) with false in E by (symmetry; apply Z.eqb_neq; exact NZ). cbn [negb andb] in E.
    assert (E2 : Ret tt h3 (set_ml o (set_size o1 (c_size o))) = Ret u h' o') by (destruct (category _ =? is_small); exact E). injection E2 as _ <- <-. rewrite B2. cbn. auto.
Qed.
Lemma reserve_spares h o l R n c u h' o' : INV h ((o, l) :: R) -> heapy o = true -> unique h o -> capacity h o = Ret c h o -> c < n ->
  reserve dbg true mal n h o = Ret u h' o' -> blk h' (c_data o) = blk h (c_data o) /\ c_data o' <> c_data o.
Proof.
  intros I HY U C LT E. destruct (Inv_head _ _ _ _ _ _ _ _ _ I) as (RP & AL). destruct (rep_heapy _ _ _ RP HY) as (k & cap & HR). pose proof HR as (B & LV & _).
  pose proof (heap_cat _ _ _ _ _ HR) as CT. pose proof (heap_cap _ _ _ _ _ HR) as MC. pose proof (capacity_heap _ _ _ _ _ HR) as CE. rewrite C in CE. injection CE as CE.
  destruct U as [U|(k1 & B1 & KD)]; [congruence|]. rewrite B in B1. injection B1 as <-.
  assert (c = cap) by (destruct KD as [KD|KD]; rewrite KD in CE; cbn in CE; congruence). subst c.
  unfold reserve in E. inv1 E. apply this_inv in X. destruct X as (-> & -> & ->). rewrite CT in E. rewrite B. inv1 E.
  inv1 E. destruct (pure_same _ _ _ _ _ _ pure_capacity X0) as (-> & ->). apply assertM_inv in E. destruct E as (-> & ->).
  destruct KD as [KD|KD]; rewrite KD in X.
  - eapply (reserve_medium_spares n h o _ _ _ _ _ AL); [rewrite MC; rewrite KD in LT; exact LT|exact B|exact X].
  - change (64 =? is_small) with false in X. change (64 =? is_medium) with false in X. change (64 =? is_large) with true in X. cbv match in X. unfold reserve_large in X.
    inv1 X. apply this_inv in X1. destruct X1 as (-> & -> & ->). inv1 X. apply assertM_inv in X1. destruct X1 as (-> & ->). inv1 X. unfold refs in X1. rewrite B, LV, KD in X1. injection X1 as <- <- <-.
    change (1 <? 1) with false in X. cbv match in X. rewrite MC in X. replace (cap <? n) with true in X by (symmetry; apply Z.ltb_lt; rewrite KD in LT; exact LT).
    inv1 X. inv1 X1. destruct (reallocate_spares _ _ _ _ _ _ _ _ _ _ _ AL B X2) as (B2 & -> & NE). destruct a3 as (nb, c1). cbn [fst] in NE. inv1 X1. apply this_inv in X3. destruct X3 as (-> & -> & ->).
    apply put_inv in X1. destruct X1 as (-> & ->). inv1 X. destruct (pure_same _ _ _ _ _ _ pure_capacity X1) as (-> & ->). apply assertM_inv in X. destruct X as (-> & ->). cbn. auto.
Qed.
Lemma expand_spares h o l R c n p h' o' : INV h ((o, l) :: R) -> heapy o = true -> unique h o -> capacity h o = Ret c h o -> 0 <= n < limit -> c < slen l + n ->
  expand_noinit dbg true mal n true h o = Ret p h' o' -> blk h' (c_data o) = blk h (c_data o) /\ c_data o' <> c_data o.
Proof.
  intros I HY U C Hn LT E. destruct (Inv_head _ _ _ _ _ _ _ _ _ I) as (RP & AL). destruct (rep_heapy _ _ _ RP HY) as (k & cap & HR). pose proof HR as (B & LV & _ & SZ & _).
  pose proof (heap_bound _ _ _ _ _ HR) as HB.
  unfold expand_noinit in E. inv1 E. rewrite C in X. injection X as <- <- <-. inv1 E. apply this_inv in X. destruct X as (-> & -> & ->). inv1 E. apply assertM_inv in X. destruct X as (-> & ->).
  cbv zeta in E. replace (category o =? is_small) with false in E by (unfold heapy in HY; destruct (category o =? is_small); [discriminate|reflexivity]).
  rewrite SZ in E. rewrite add_small in E by lia. inv1 E. rewrite C in X. injection X as <- <- <-. replace (c <? slen l + n) with true in E by (symmetry; apply Z.ltb_lt; exact LT).
  inv1 E. eapply reserve_spares in X; [|exact I|exact HY|exact U|exact C|lia]. destruct X as (B1 & NE).
  inv1 E. destruct (pure_same _ _ _ _ _ _ pure_capacity X) as (-> & ->). inv1 E. apply assertM_inv in X0. destruct X0 as (-> & ->). inv1 E. apply this_inv in X0. destruct X0 as (-> & -> & ->).
  inv1 E. apply assertM_inv in X0. destruct X0 as (-> & ->). inv1 E. apply put_inv in X0. destruct X0 as (-> & ->). inv1 E. destruct (write_spares _ _ _ _ _ _ _ _ _ NE X0) as (B2 & ->).
  inv1 E. apply this_inv in X1. destruct X1 as (-> & -> & ->). inv1 E. apply assertM_inv in X1. destruct X1 as (-> & ->). injection E as _ <- <-. cbn. split; [congruence|exact NE].
Qed.
Lemma insert_at_arena h o l R c pos off n : INV h ((o, l) :: R) -> good l -> heapy o = true -> unique h o -> capacity h o = Ret c h o -> 0 <= pos <= slen l -> 0 <= off -> 0 <= n -> off + n <= slen l ->
  c < slen l + n ->
  spec (insert_at dbg true mal pos (ptr_add (data o) off) n) h o (fun _ h' o' => INV h' ((o', splice pos 0 (piece off n l) l) :: R)) (StrProofs3.Keep dbg true mal ar N o l R).
Proof.
  intros I Gl HY U C Hp Ho Hn Hl LT. pose proof (len_ok _ _ _ _ _ _ _ _ _ I) as LO. destruct (Inv_head _ _ _ _ _ _ _ _ _ I) as (RP & _). destruct (rep_heapy _ _ _ RP HY) as (k & cap & HR). pose proof HR as (B & LV & _).
  pose proof (heap_bound _ _ _ _ _ HR) as HB. pose proof (capacity_heap _ _ _ _ _ HR) as CE. rewrite C in CE. injection CE as CE.
  assert (n = 0 \/ 0 < n) as [N0|N0] by lia.
  { exfalso. destruct U as [U|(k1 & B1 & KD)]; [congruence|]. rewrite B in B1. injection B1 as <-. destruct KD as [KD|KD]; rewrite KD in CE; cbn in CE; lia. }
  unfold insert_at. eapply guard_keep; [exact I|]. apply spec_size. rewrite (size_ok _ _ _ _ _ _ _ _ _ I).
  apply spec_assert; [apply andb_true_intro; split; apply Z.leb_le; lia|].
  eapply spec_bnd; [eapply spec_and; [eapply expand_spec; [exact I|lia|lia]|intros p h' o' E; refine (expand_spares h o l R c n p h' o' I HY U C _ LT E); lia]|].
  intros q h' o' ((u & I' & Lu & _ & U') & (BB & NE)). specialize (U' N0).
  eapply begin_then; [exact I'|]. intros h2 o2 I2 U2 SE. destruct (SE U') as (-> & ->). clear SE.
  destruct (Inv_head _ _ _ _ _ _ _ _ _ I2) as (RP2 & _).
  assert (RD : read (ptr_add (data o') pos) (slen l - pos) h' o' = Ret (piece pos (slen l - pos) l) h' o').
  { rewrite (own_read _ _ _ _ _ _ _ _ _ pos (slen l - pos) I2) by (slens; lia). f_equal. lists. }
  destruct (move_own _ _ _ _ _ h' o' (l ++ u) R (pos + n) _ _ _ I2 (or_introl U2) RD) as (h3 & o3 & W & I3 & D3 & _ & U3 & _);
    [slens; lia|apply good_piece; exact Gl|lia|slens; lia|].
  eapply spec_eq; [exact W|]. rewrite <- !(data_eq o' o3 D3).
  assert (B3 : blk h3 (c_data o) = blk h (c_data o)).
  { apply move_write in W. destruct W as (y & W). destruct (heapy o') eqn:HY'.
    - rewrite (data_heap _ HY') in W. cbn [ptr_add] in W. apply (write_spares _ _ _ _ _ _ _ _ _ NE) in W. destruct W as (W & _). congruence.
    - rewrite (data_small _ HY') in W. cbn [ptr_add write] in W. match type of W with (if ?b then _ else _) = _ => destruct b; [|discriminate] end. injection W as <- _. exact BB. }
  pose proof (read_own h o l off n RP Ho Hn Hl) as RO. rewrite (data_heap _ HY) in RO. cbn [ptr_add read] in RO.
  assert (RD3 : read (ptr_add (data o) off) n h3 o3 = Ret (piece off n l) h3 o3).
  { rewrite (data_heap _ HY). cbn [ptr_add read]. rewrite B3. destruct (blk h (c_data o)) as [kk|]; [|discriminate]. destruct (in_blk kk (0 + off) n); [|discriminate]. congruence. }
  assert (LX : slen (piece off n l) = n) by (apply slen_piece; lia).
  destruct (move_own _ _ _ _ _ h3 o3 _ R pos _ n _ I3 (or_introl (U3 U2)) RD3 LX (good_piece _ _ _ Gl)) as (h4 & o4 & W4 & I4 & _); [lia|slens; lia|].
  eapply spec_ret_eq; [exact W4|]. cbv beta. rewrite insert_list in I4 by (slens; lia). exact I4.
Qed.
Lemma insert_arena_spec h o l R c pos off n : INV h ((o, l) :: R) -> good l -> heapy o = true -> unique h o -> capacity h o = Ret c h o -> 0 <= pos <= slen l -> 0 <= off -> 0 <= n -> off + n <= slen l ->
  c < slen l + n ->
  spec (insert dbg true mal pos (ptr_add (data o) off) n) h o (fun _ h' o' => INV h' ((o', splice pos 0 (piece off n l) l) :: R)) (StrProofs6.Bad dbg true mal ar N R).
Proof.
  intros I Gl HY U C Hp Ho Hn Hl LT. pose proof (len_ok _ _ _ _ _ _ _ _ _ I) as LO.
  unfold insert. apply spec_size. rewrite (size_ok _ _ _ _ _ _ _ _ _ I). unfold enforce.
  replace (pos <=? slen l) with true by (symmetry; apply Z.leb_le; lia). apply spec_bret.
  eapply begin_then; [exact I|]. intros h' o' I' U' SE. destruct (SE U) as (-> & ->).
  eapply spec_bnd; [eapply spec_Keep_Bad; [exact Gl|eapply insert_at_arena; try eassumption; auto]|]. intros a h2 o2 I2. apply spec_ret. exact I2.
Qed.
End A.
Lemma reach_insert_arena dbg mal ar (MS : mal_sane mal) (NZ : ar <> 0) n s ss i c cap l pos off k : StrStatements.reach dbg true mal ar n s -> short n -> sees s ss ->
  sget (s_objs s) i = Some c -> sget ss i = Some l -> category c <> is_small -> is_shared (s_heap s) c = Ret false (s_heap s) c -> capacity (s_heap s) c = Ret cap (s_heap s) c ->
  0 <= pos <= slen l -> 0 <= off -> 0 <= k -> off + k <= slen l -> cap < slen l + k ->
  gives (StrStatements.step dbg true mal ar s (SOn i (UInsert pos (Piece i off k)))) (sset i (Some (splice pos 0 (piece off k l) l)) ss).
Proof.
  intros H SH SE Ec El CT UN C Hp Ho Hk Hl LT. assert (AO : ar_ok dbg true ar) by (intros _; exact NZ).
  pose proof (reach_bytes dbg true mal ar MS AO _ _ _ _ _ H SH SE El) as BL.
  eapply reach_own; try eassumption; [apply bytes_splice; [exact BL|apply bytes_piece; exact BL]|].
  intros R IR GL. rewrite map_splice, map_piece.
  assert (HY : heapy c = true) by (unfold heapy; apply negb_true_iff, Z.eqb_neq; exact CT).
  eapply insert_arena_spec; [exact NZ|exact IR|exact GL|exact HY|eapply unshared_unique; [exact IR|apply shared_clean; exact UN]|apply capacity_clean; exact C|..]; rewrite ?slen_map; lia.
Qed.
End Wide.
