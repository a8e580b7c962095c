(** Writing to a string's own characters; reallocation, unsharing, reserve. *)
Require Import ZArith List Bool Lia Permutation.
From Verif Require Import Base BaseProofs StrSpec StrModel StrProofs StrProofs2 StrProofs3.
Import ListNotations.
Open Scope Z_scope.


Section Wide.
Context {ChT : CharType}.

Definition sole (k : block) : Prop := bk_kind k = Plain \/ bk_kind k = Counted 1.
Lemma slen_snoc {A} (l : list A) x : slen (l ++ [x]) = slen l + 1.
Proof. rewrite slen_app, slen_cons, slen_nil. lia. Qed.
Lemma lget_snoc l x i : 0 <= i <= slen l -> lget (l ++ [x]) i = if i <? slen l then lget l i else x.
Proof.
  intros H. rewrite lget_app by lia. destruct (Z.ltb_spec i (slen l)); [reflexivity|].
  replace (i - slen l) with 0 by lia. reflexivity.
Qed.
Lemma prefix_app (l l' : list (option Z)) : slen l <= slen l' -> (forall i, 0 <= i < slen l -> lget l' i = lget l i) ->
  exists u, l' = l ++ u /\ slen u = slen l' - slen l.
Proof.
  intros H G. pose proof (slen_nonneg l). exists (sdrop (slen l) l'). split; [|apply slen_sdrop; lia].
  apply lext; [rewrite slen_app, slen_sdrop by lia; lia|].
  intros i Hi. rewrite lget_app by lia. destruct (Z.ltb_spec i (slen l)); [apply G; lia|].
  rewrite lget_sdrop by lia. f_equal. lia.
Qed.
Lemma in_blk_ok k off n : bk_live k = true -> 0 <= off -> 0 <= n -> off + n <= bk_len k -> in_blk k off n = true.
Proof.
  intros L H1 H2 H3. unfold in_blk. rewrite L.
  destruct (Z.leb_spec 0 off), (Z.leb_spec 0 n), (Z.leb_spec (off + n) (bk_len k)); try lia; reflexivity.
Qed.

Section S.
Variables (dbg arena : bool) (mal : nat -> Z -> bool) (ar N : Z).
Notation Inv := (StrProofs2.Inv dbg arena mal ar N).
Notation Keep := (StrProofs3.Keep dbg arena mal ar N).

Lemma unique_sole h o l k cap : unique h o -> heap_rep h o l k cap -> sole k.
Proof.
  intros U R. pose proof (heap_heapy _ _ _ _ _ R) as H. destruct U as [U|(k' & B & K)]; [congruence|].
  destruct R as (B' & _). rewrite B in B'. injection B' as <-. exact K.
Qed.
Lemma sole_unique h o l k cap : heap_rep h o l k cap -> sole k -> unique h o.
Proof. intros R K. right. exists k. split; [apply R|exact K]. Qed.
Lemma unique_dec h o l R : Inv h ((o, l) :: R) ->
  unique h o \/ exists k cap r, heap_rep h o l k cap /\ bk_kind k = Counted r /\ 1 < r.
Proof.
  intros I. destruct (Inv_head _ _ _ _ _ _ _ _ _ I) as ([S|(k & cap & HR)] & _).
  - left. left. eapply small_heapy. eassumption.
  - destruct (bk_kind k) as [|r] eqn:K.
    + left. eapply sole_unique; [eassumption|left; assumption].
    + pose proof (refs_bound _ _ _ _ _ _ _ _ _ _ _ _ I HR K). destruct (Z.eq_dec r 1) as [->|].
      * left. eapply sole_unique; [eassumption|right; assumption].
      * right. exists k, cap, r. repeat split; auto; try apply HR. lia.
Qed.

(** ** Writing *)
Lemma write_own h o l R off x :
  Inv h ((o, l) :: R) -> unique h o \/ x = [] -> good x -> 0 <= off -> off + slen x <= slen l ->
  exists h' o', write (ptr_add (data o) off) x h o = Ret tt h' o' /\ Inv h' ((o', splice off (slen x) x l) :: R) /\
    data o' = data o /\ heapy o' = heapy o /\ (unique h o -> unique h' o') /\ flags h h'.
Proof.
  intros I U G H1 H2. destruct (Inv_head _ _ _ _ _ _ _ _ _ I) as (HR & A). pose proof (slen_nonneg x) as Hx.
  destruct HR as [S|(k & cap & HR)].
  - pose proof (small_heapy _ _ S) as Hs. exists h, (set_units o off x). rewrite (data_small _ Hs). cbn [ptr_add write Z.add].
    pose proof S as S0. destruct S as (L & B & T & Gl).
    destruct (Z.leb_spec 0 off), (Z.leb_spec (off + slen x) num_small); try lia. cbn [andb]. split; [reflexivity|].
    assert (BA : forall j, 0 <= j < num_small -> Some (unit_at (set_units o off x) j) =
              if (off <=? j) && (j <? off + slen x) then lget x (j - off) else Some (unit_at o j))
      by (intros; apply set_units_at; auto; lia).
    assert (S' : small_rep (set_units o off x) (splice off (slen x) x l)).
    { unfold small_rep. rewrite slen_splice by lia. replace (slen l - slen x + slen x) with (slen l) by lia.
      pose proof (slen_nonneg l). split; [lia|]. split; [|split].
      - specialize (BA (@max_small ChT) ltac:(lia)). destruct (Z.leb_spec off max_small), (Z.ltb_spec max_small (off + slen x)); cbn [andb] in BA; try lia; congruence.
      - specialize (BA (slen l) ltac:(lia)). destruct (Z.leb_spec off (slen l)), (Z.ltb_spec (slen l) (off + slen x)); cbn [andb] in BA; try lia; congruence.
      - intros i Hi. rewrite BA by lia. rewrite lget_splice by lia.
        destruct (Z.ltb_spec i off), (Z.leb_spec off i), (Z.ltb_spec i (off + slen x)); cbn [andb]; try lia; try (rewrite <- Gl by lia); try reflexivity.
        f_equal. lia. }
    pose proof (small_heapy _ _ S') as Hs'. split.
    { eapply Inv_small; try eassumption; [apply set_units_al|]. intros EO.
      pose proof (i_off _ _ _ _ _ _ _ I EO o l (or_introl eq_refl) Hs) as El. subst l. apply slen_0.
      rewrite slen_splice by lia. rewrite slen_nil in *. lia. }
    rewrite (data_small _ Hs'). split; [reflexivity|]. split; [congruence|]. split; [intros; left; assumption|apply flags_refl].
  - pose proof (heap_heapy _ _ _ _ _ HR) as Hh. pose proof (heap_bound _ _ _ _ _ HR) as Hb.
    exists (upd_blk h (c_data o) (set_chars k (over (bk_at k) off x))), o. rewrite (data_heap _ Hh). cbn [ptr_add write Z.add].
    pose proof HR as (B & L & C1 & C2 & C3 & C4 & C5 & C6). rewrite B.
    rewrite in_blk_ok by (try assumption; lia). split; [reflexivity|].
    assert (HR' : heap_rep (upd_blk h (c_data o) (set_chars k (over (bk_at k) off x))) o (splice off (slen x) x l) (set_chars k (over (bk_at k) off x)) cap).
    { unfold heap_rep. rewrite (blk_upd _ _ _ _ _ B), Z.eqb_refl. rewrite slen_splice by lia.
      replace (slen l - slen x + slen x) with (slen l) by lia. cbn [set_chars bk_live bk_len bk_at bk_kind].
      repeat (split; [assumption || reflexivity|]). split.
      - rewrite over_at. destruct (Z.leb_spec off (slen l)), (Z.ltb_spec (slen l) (off + slen x)); cbn [andb]; try lia; assumption.
      - split; [|assumption]. intros i Hi. rewrite over_at, lget_splice by lia.
        destruct (Z.ltb_spec i off), (Z.leb_spec off i), (Z.ltb_spec i (off + slen x)); cbn [andb]; try lia; try (rewrite C5 by lia); try reflexivity.
        f_equal. lia. }
    split.
    + eapply Inv_upd; try eassumption; try reflexivity.
      destruct U as [U|U]; [left; exact (unique_sole _ _ _ _ _ U HR)|right]. subst x.
      rewrite slen_splice by lia. split; [lia|]. split; [reflexivity|]. intros i Hi. cbn [set_chars bk_at]. rewrite over_at. rewrite slen_nil in *.
      destruct (Z.leb_spec off i), (Z.ltb_spec i (off + 0)); cbn [andb]; try lia; reflexivity.
    + split; [reflexivity|]. split; [reflexivity|]. split; [|apply flags_upd].
      intros U'. eapply sole_unique; [exact HR'|]. exact (unique_sole _ _ _ _ _ U' HR).
Qed.

Lemma fill_own h o l R off n c :
  Inv h ((o, l) :: R) -> unique h o \/ n = 0 -> is_char c -> 0 <= off -> 0 <= n -> off + n <= slen l ->
  exists h' o', fill (ptr_add (data o) off) n c h o = Ret tt h' o' /\ Inv h' ((o', splice off n (srep n (Some c)) l) :: R) /\
    data o' = data o /\ heapy o' = heapy o /\ (unique h o -> unique h' o') /\ flags h h'.
Proof.
  intros I U Hc H1 H2 H3.
  destruct (write_own h o l R off (srep n (Some c)) I) as (h' & o' & W & X); try assumption.
  - destruct U as [U| ->]; [left; assumption|right; reflexivity].
  - apply good_srep. assumption.
  - rewrite slen_srep; assumption.
  - rewrite slen_srep in X by assumption. exists h', o'. split; [|exact X]. rewrite <- W.
    unfold fill. destruct (Inv_head _ _ _ _ _ _ _ _ _ I) as ([S|(k & cap & HR)] & A).
    + rewrite (data_small _ (small_heapy _ _ S)). cbn [ptr_add Z.add]. destruct S as (L & _).
      destruct (Z.leb_spec 0 off), (Z.leb_spec 0 n), (Z.leb_spec (off + n) num_small); try lia. reflexivity.
    + pose proof (heap_bound _ _ _ _ _ HR). rewrite (data_heap _ (heap_heapy _ _ _ _ _ HR)). cbn [ptr_add Z.add].
      destruct HR as (B & L & C & _). rewrite B, in_blk_ok by (try assumption; lia). reflexivity.
Qed.
Lemma move_own h o l R off p n x :
  Inv h ((o, l) :: R) -> unique h o \/ n = 0 -> read p n h o = Ret x h o -> slen x = n -> good x ->
  0 <= off -> off + n <= slen l ->
  exists h' o', pod_move p (ptr_add (data o) off) n h o = Ret tt h' o' /\ Inv h' ((o', splice off n x l) :: R) /\
    data o' = data o /\ heapy o' = heapy o /\ (unique h o -> unique h' o') /\ flags h h'.
Proof.
  intros I U Rd L G H1 H2. unfold pod_move, bnd. rewrite Rd. subst n.
  apply write_own; try assumption. destruct U as [U|U]; [left; assumption|right; apply slen_0; assumption].
Qed.
Lemma src_apart h o l R b i n x : Inv h ((o, l) :: R) -> unique h o -> heapy o = true -> src R (PHeap b i) n x -> b <> c_data o.
Proof.
  intros I U Hh (_ & _ & _ & oj & lj & X & Y & D & _). destruct (Inv_head _ _ _ _ _ _ _ _ _ I) as (HR & _).
  destruct (rep_heapy _ _ _ HR Hh) as (k & cap & HR').
  pose proof (others_not _ _ _ _ _ _ _ _ _ _ _ I HR' (unique_sole _ _ _ _ _ U HR')) as O0.
  pose proof (owners_0 _ _ O0 _ _ X) as F. intros E. unfold owns in F. rewrite Y, D, E, Z.eqb_refl in F. discriminate.
Qed.
Lemma Inv_tail_src h o l R p n x : Inv h ((o, l) :: R) -> src R p n x -> read p n h o = Ret x h o.
Proof. intros I S. eapply read_src; [exact I|]. eapply src_mono; [|exact S]. intros y Hy. right. exact Hy. Qed.
Lemma copy_own h o l R off p n x :
  Inv h ((o, l) :: R) -> unique h o \/ n = 0 -> src R p n x -> good x -> 0 <= off -> off + n <= slen l ->
  exists h' o', pod_copy dbg p (ptr_add (data o) off) n h o = Ret tt h' o' /\ Inv h' ((o', splice off n x l) :: R) /\
    data o' = data o /\ heapy o' = heapy o /\ (unique h o -> unique h' o') /\ flags h h'.
Proof.
  intros I U S G H1 H2. pose proof (Inv_tail_src _ _ _ _ _ _ _ I S) as Rd.
  assert (V : overlaps p (ptr_add (data o) off) n = false).
  { destruct p as [j|b j|l0]; [destruct S as (_ & _ & []) | | reflexivity].
    destruct (heapy o) eqn:Hh; [rewrite (data_heap _ Hh)|rewrite (data_small _ Hh); reflexivity].
    cbn [ptr_add overlaps Z.add]. destruct U as [U| ->].
    - pose proof (src_apart _ _ _ _ _ _ _ _ I U Hh S). destruct (Z.eqb_spec b (c_data o)); [contradiction|reflexivity].
    - destruct (Z.leb_spec (j + 0) off), (Z.leb_spec (off + 0) j); try lia; apply andb_false_r. }
  destruct (move_own h o l R off p n x I U Rd) as (h' & o' & W & X); try assumption; [apply S|].
  exists h', o'. split; [|exact X]. rewrite <- W. unfold pod_copy, pod_move, assertM. rewrite V. cbn [negb]. rewrite andb_false_r. reflexivity.
Qed.

(** Changing the size in place. *)
Lemma set_len h o l R k cap n :
  Inv h ((o, l) :: R) -> heap_rep h o l k cap -> sole k \/ n = slen l -> 0 <= n <= cap ->
  exists h' l' k', write (PHeap (c_data o) n) [Some 0] h (set_size o n) = Ret tt h' (set_size o n) /\
    Inv h' ((set_size o n, l') :: R) /\ heap_rep h' (set_size o n) l' k' cap /\ bk_kind k' = bk_kind k /\ slen l' = n /\
    (forall i, 0 <= i < n -> i < slen l -> lget l' i = lget l i) /\ flags h h'.
Proof.
  intros I HR U Hn. pose proof HR as (B & L & C1 & C2 & C3 & C4 & C5 & C6).
  set (k' := set_chars k (over (bk_at k) n [Some 0])). set (l' := chars_from (bk_at k) 0 n).
  assert (EL : slen l' = n) by (apply slen_chars; lia).
  exists (upd_blk h (c_data o) k'), l', k'.
  assert (HR' : heap_rep (upd_blk h (c_data o) k') (set_size o n) l' k' cap).
  { unfold heap_rep. cbn [set_size c_data c_size k' set_chars bk_live bk_len bk_at bk_kind]. rewrite EL.
    rewrite (blk_upd _ _ _ _ _ B), Z.eqb_refl.
    repeat (split; [assumption || reflexivity || lia|]). split; [|split].
    - rewrite over_at. change (slen [Some 0]) with 1. destruct (Z.leb_spec n n), (Z.ltb_spec n (n + 1)); try lia.
      cbn [andb]. rewrite Z.sub_diag. reflexivity.
    - intros i Hi. rewrite over_at. destruct (Z.leb_spec n i); [lia|]. cbn [andb].
      unfold l'. rewrite lget_chars by lia. reflexivity.
    - destruct (bk_kind k); eapply has_cap_ext; try exact C6; reflexivity. }
  split.
  { cbn [write]. rewrite B. rewrite in_blk_ok; try assumption; try lia; [reflexivity|discriminate|]. change (slen [Some 0]) with 1. lia. }
  split.
  { eapply Inv_upd; try exact HR'; try eassumption; try reflexivity. destruct U as [U|U]; [left; exact U|right].
    split; [lia|]. split; [reflexivity|]. intros i Hi. cbn [k' set_chars bk_at]. rewrite over_at. change (slen [Some 0]) with 1.
    destruct (Z.leb_spec n i), (Z.ltb_spec i (n + 1)); cbn [andb]; try lia; try reflexivity.
    replace i with (slen l) by lia. replace (slen l - n) with 0 by lia. rewrite C4. reflexivity. }
  split; [exact HR'|]. split; [reflexivity|]. split; [exact EL|]. split; [|apply flags_upd].
  intros i Hi Hi'. unfold l'. rewrite lget_chars by lia. rewrite C5 by lia. reflexivity.
Qed.

(** ** Reallocation *)
Lemma move_block_spec h o l R k cap m bytes n :
  (bytes - header (bk_kind k)) / csize = n + 1 -> Inv h ((o, l) :: R) -> heap_rep h o l k cap -> slen l + 1 <= m <= cap + 1 -> cap <= n ->
  spec (move_block dbg arena mal (c_data o) m bytes) h o
    (fun b h' o' => b = nb h /\ o' = o /\ bytes <= 2 ^ 62 /\ exists k', h' = push h k' /\ bk_kind k' = bk_kind k /\ bk_res k' = ar /\
       bk_live k' = true /\ bk_len k' = n + 1 /\ bk_at k' (slen l) = Some 0 /\ (forall i, 0 <= i < slen l -> lget l i = bk_at k' i))
    (fun e h' o' => e = BadAlloc /\ h' = refuse h /\ o' = o).
Proof.
  intros RM I HR Hm Hn. pose proof (heap_bound _ _ _ _ _ HR). pose proof HR as (B & L & C1 & C2 & C3 & C4 & C5 & C6).
  destruct (Inv_head _ _ _ _ _ _ _ _ _ I) as (_ & A).
  unfold move_block. eapply spec_eq; [reflexivity|]. rewrite B, in_blk_ok by (try assumption; lia).
  eapply spec_bnd; [eapply alloc_spec; eassumption|]. intros b h' o' (-> & -> & -> & Hb).
  assert (Rd : read (PHeap (c_data o) 0) m (push h (fresh (bk_kind k) ar (n + 1))) o =
               Ret (chars_from (bk_at k) 0 m) (push h (fresh (bk_kind k) ar (n + 1))) o).
  { cbn [read]. rewrite (blk_push_old _ _ _ _ B), in_blk_ok by (try assumption; lia). reflexivity. }
  eapply spec_eq; [exact Rd|].
  eapply spec_eq; [apply write_push; rewrite slen_chars by lia; apply in_blk_ok; try reflexivity; try lia; cbn [fresh bk_len]; lia|].
  apply spec_ret. repeat (split; [reflexivity || assumption|]). eexists. split; [reflexivity|].
  cbn [set_chars fresh bk_kind bk_res bk_live bk_len bk_at]. repeat (split; [reflexivity|]).
  assert (G : forall i, 0 <= i <= slen l -> over (fun _ : Z => None) 0 (chars_from (bk_at k) 0 m) i = bk_at k i).
  { intros i Hi. rewrite over_at, slen_chars by lia. destruct (Z.leb_spec 0 i), (Z.ltb_spec i (0 + m)); try lia.
    cbn [andb]. rewrite lget_chars by lia. f_equal. lia. }
  split; [rewrite G by lia; assumption|]. intros i Hi. rewrite G by lia. apply C5. assumption.
Qed.

Definition kind_of (k : block) (hdr cat : Z) : Prop :=
  bk_kind k = Plain /\ hdr = 0 /\ cat = 128 \/ bk_kind k = Counted 1 /\ hdr = 8 /\ cat = 64.
Lemma kind_sole k hdr cat : kind_of k hdr cat -> sole k.
Proof. intros [(K & _)|(K & _)]; [left|right]; exact K. Qed.

Lemma free_after_move h o l R k cap hdr cat n k' :
  Inv h ((o, l) :: R) -> heap_rep h o l k cap -> kind_of k hdr cat -> n < limit -> ar = 0 ->
  bk_kind k' = bk_kind k -> bk_res k' = ar -> bk_live k' = true -> bk_len k' = n + 1 -> slen l <= n -> bk_at k' (slen l) = Some 0 ->
  (forall i, 0 <= i < slen l -> lget l i = bk_at k' i) ->
  exists h', free_block arena (0 <? hdr) (c_data o) (hdr + (cap + 1) * csize) (push h k') o = Ret tt h' o /\ flags h h' /\
    forall o2, c_data o2 = nb h -> c_size o2 = c_size o -> c_al o2 = c_al o -> has_cap o2 n cat ->
      heap_rep h' o2 l k' n /\ Inv h' ((o2, l) :: R).
Proof.
  intros I HR K Hn EA K1 K2 K3 K4 Hl K5 K6. pose proof (res_ok _ _ _ _ _ _ _ _ _ _ _ I HR) as RS. rewrite EA in RS.
  destruct (Inv_head _ _ _ _ _ _ _ _ _ I) as (_ & A).
  exists (upd_blk (push h k') (c_data o) (kill k)). split; [|split].
  - pose proof (free_ok arena _ _ _ _ _ o (heap_rep_push _ k' _ _ _ _ HR) RS) as F.
    destruct K as [(K & -> & _)|(K & -> & _)]; rewrite K in F; rewrite Z.add_comm; exact F.
  - split; reflexivity.
  - intros o2 D S E C. pose proof HR as (B & L & C1 & C2 & _).
    assert (heap_rep (push h k') o2 l k' n /\ Inv (push h k') ((o2, l) :: (o, l) :: R)) as (H2 & I2).
    { eapply new_heap_rep; try eassumption; try congruence.
      destruct K as [(K & _ & ->)|(K & _ & ->)]; [left|right]; split; congruence || assumption. }
    pose proof (blk_range _ _ _ B). split.
    + destruct H2 as (B2 & H2). split; [|exact H2].
      rewrite (blk_upd _ _ _ _ _ (blk_push_old _ k' _ _ B)). destruct (Z.eqb_spec (c_data o) (c_data o2)); [lia|exact B2].
    + apply Inv_swap in I2. eapply Inv_free; try eassumption; [apply heap_rep_push; eassumption|exact (kind_sole _ _ _ K)].
Qed.

Lemma smart_realloc_spec h o l R k cap n hdr cat :
  Inv h ((o, l) :: R) -> heap_rep h o l k cap -> kind_of k hdr cat -> cap < n ->
  spec (smart_realloc dbg arena mal hdr (c_data o) (hdr + (slen l + 1) * csize) (hdr + (cap + 1) * csize) (hdr + (n + 1) * csize)) h o
    (fun b h' o' => o' = o /\ n < limit /\ exists k', bk_kind k' = bk_kind k /\
       forall o2, c_data o2 = b -> c_size o2 = c_size o -> c_al o2 = c_al o -> has_cap o2 n cat ->
         heap_rep h' o2 l k' n /\ Inv h' ((o2, l) :: R))
    (Keep o l R).
Proof.
  intros I HR K Hn. pose proof (heap_bound _ _ _ _ _ HR) as Hb. destruct (Inv_head _ _ _ _ _ _ _ _ _ I) as (_ & A).
  pose proof (res_ok _ _ _ _ _ _ _ _ _ _ _ I HR) as RS.
  assert (Hh : hdr = 0 \/ hdr = 8) by (destruct K as [(_ & -> & _)|(_ & -> & _)]; auto).
  assert (RM : (hdr + (n + 1) * csize - header (bk_kind k)) / csize = n + 1).
  { destruct K as [(-> & -> & _)|(-> & -> & _)]; cbn [header]; rewrite Z.add_simpl_l || rewrite Z.sub_0_r; apply bytes_back. }
  assert (KE : forall h' o', h' = refuse h -> o' = o -> Keep o l R BadAlloc h' o').
  { intros h' o' -> ->. split; [reflexivity|]. split; [reflexivity|]. left. split; [reflexivity|]. apply Inv_refuse. assumption. }
  pose proof (bytes_mono (cap + 1) (n + 1)) as M1. pose proof (bytes_mono_le (slen l + 1) (cap + 1)) as M2. pose proof (bytes_limit (n + 1)) as M3.
  unfold smart_realloc. apply spec_this. apply spec_assert.
  { apply andb_true_intro. split; [apply Z.leb_le|apply Z.ltb_lt]; lia. }
  replace ((hdr + (slen l + 1) * csize - hdr) / csize) with (slen l + 1) by (replace (hdr + (slen l + 1) * csize - hdr) with ((slen l + 1) * csize) by lia; rewrite bytes_back; reflexivity).
  replace ((hdr + (n + 1) * csize - hdr) / csize) with (n + 1) by (replace (hdr + (n + 1) * csize - hdr) with ((n + 1) * csize) by lia; rewrite bytes_back; reflexivity).
  replace ((hdr + (cap + 1) * csize - hdr) / csize) with (cap + 1) by (replace (hdr + (cap + 1) * csize - hdr) with ((cap + 1) * csize) by lia; rewrite bytes_back; reflexivity).
  assert (arena = true \/ arena = false) as [EA|EA] by (destruct arena; auto).
  - apply spec_if; [intros _|intros; congruence].
    pose proof (Inv_al dbg _ _ _ _ _ _ _ _ I) as AL. rewrite EA in AL. cbn [andb] in AL. rewrite AL.
    eapply spec_bnd2; [eapply (move_block_spec h o l R k cap); try eassumption; lia| |].
    { intros e h' o' (-> & -> & ->). apply KE; reflexivity. }
    intros b h' o' (-> & -> & Hby & k' & -> & K1 & K2 & K3 & K4 & K5 & K6). rewrite A.
    destruct (Z.eqb_spec ar 0).
    { destruct (free_after_move h o l R k cap hdr cat n k') as (h' & F & _ & G); try assumption; try lia.
      eapply spec_eq; [exact F|]. apply spec_ret. split; [reflexivity|]. split; [lia|]. rewrite A in G. exists k'. auto. }
    apply spec_bret. apply spec_ret. split; [reflexivity|]. split; [lia|]. exists k'. split; [assumption|].
    intros o2 D S E C.
    assert (heap_rep (push h k') o2 l k' n /\ Inv (push h k') ((o2, l) :: (o, l) :: R)) as (H2 & I2).
    { pose proof HR as (_ & _ & _ & C2 & _). eapply new_heap_rep; try eassumption; try congruence; try lia.
      destruct K as [(K & _ & ->)|(K & _ & ->)]; [left|right]; split; congruence || assumption. }
    split; [exact H2|]. apply Inv_swap in I2. eapply Inv_weaken; eassumption.
  - apply spec_if; [intros; congruence|intros _]. cbv zeta. pose proof (ar_zero _ _ _ _ _ _ _ EA I) as Z0. apply spec_if; intros _.
    + eapply spec_bnd2; [eapply (move_block_spec h o l R k cap); try eassumption; lia| |].
      { intros e h' o' (-> & -> & ->). apply KE; reflexivity. }
      intros b h' o' (-> & -> & Hby & k' & -> & K1 & K2 & K3 & K4 & K5 & K6).
      destruct (free_after_move h o l R k cap hdr cat n k') as (h' & F & _ & G); try assumption; try lia.
      eapply spec_eq; [exact F|]. apply spec_ret. split; [reflexivity|]. split; [lia|]. exists k'. auto.
    + unfold spec. destruct (mal (h_calls h) (hdr + (n + 1) * csize)) eqn:Q.
      * replace (Z.min (cap + 1) (n + 1)) with (cap + 1) by lia.
        pose proof (move_block_spec h o l R k cap (cap + 1) (hdr + (n + 1) * csize) n RM I HR ltac:(lia) ltac:(lia)) as X.
        unfold spec in X. unfold bnd at 1.
        destruct (move_block dbg arena mal (c_data o) (cap + 1) (hdr + (n + 1) * csize) h o) as [b h' o'|e h' o'|h'| |h'].
        -- destruct X as (-> & -> & Hby & k' & -> & K1 & K2 & K3 & K4 & K5 & K6).
           destruct (free_after_move h o l R k cap hdr cat n k') as (h' & F & _ & G); try assumption; try lia.
           unfold bnd. rewrite F. cbn [ret]. split; [reflexivity|]. split; [lia|]. exists k'. auto.
        -- destruct X as (-> & -> & ->). apply KE; reflexivity.
        -- exact X.
        -- exact X.
        -- exact X.
      * rewrite (ar_zero _ _ _ _ _ _ _ EA I) in RS. pose proof (free_ok arena _ _ _ _ _ o HR RS) as F.
        assert (F' : free_block arena (0 <? hdr) (c_data o) (hdr + (cap + 1) * csize) h o = Ret tt (upd_blk h (c_data o) (kill k)) o).
        { destruct K as [(K & -> & _)|(K & -> & _)]; rewrite K in F; rewrite Z.add_comm; exact F. }
        unfold bnd. rewrite F'. cbn [heap_of put_heap throw]. split; [reflexivity|]. split; [reflexivity|]. right.
        split; [exact (heap_heapy _ _ _ _ _ HR)|]. split; [assumption|]. split; [reflexivity|]. split.
        -- split; [rewrite (heap_cat _ _ _ _ _ HR); destruct (bk_kind k); auto|].
           exists (kill k). split; [|reflexivity]. change (blk (upd_blk h (c_data o) (kill k)) (c_data o) = Some (kill k)).
           destruct HR as (B & _). rewrite (blk_upd _ _ _ _ _ B), Z.eqb_refl. reflexivity.
        -- eapply Inv_blocks with (h := upd_blk h (c_data o) (kill k)); [reflexivity|].
           eapply Inv_free; try eassumption. exact (kind_sole _ _ _ K).
Qed.

(** ** Unsharing *)
Definition grown (l : list (option Z)) (R : pairs) (n : Z) (h' : heap) (o' : core) : Prop :=
  Inv h' ((o', l) :: R) /\ exists k' cap', heap_rep h' o' l k' cap' /\ sole k' /\ n <= cap'.

Lemma unshare_spec h o l R k cap r m :
  Inv h ((o, l) :: R) -> heap_rep h o l k cap -> bk_kind k = Counted r -> 1 < r -> 0 <= m < 2 * limit ->
  spec (unshare dbg arena mal m) h o (fun _ h' o' => grown l R m h' o') (Keep o l R).
Proof.
  intros I HR K Hr Hm. pose proof (heap_bound _ _ _ _ _ HR) as Hb. destruct (Inv_head _ _ _ _ _ _ _ _ _ I) as (_ & A).
  pose proof (heap_cap _ _ _ _ _ HR) as EC. pose proof (heap_cat _ _ _ _ _ HR) as CT. rewrite K in CT.
  pose proof HR as (B & L & C1 & C2 & C3 & C4 & C5 & C6).
  unfold unshare. apply spec_this. apply spec_assert; [rewrite CT; reflexivity|]. rewrite EC.
  eapply spec_bnd2; [eapply create_spec; [exact I|exact A|lia]| |].
  { intros e h' o' (-> & -> & ->). split; [reflexivity|]. split; [reflexivity|]. left. split; [reflexivity|]. apply Inv_refuse. assumption. }
  intros (b, c) h' o' (E & -> & -> & Hc). injection E as -> ->.
  set (n := Z.max m cap) in *.
  apply spec_assert; [apply Z.leb_le; lia|].
  set (kf := fresh (Counted 1) ar (n + 1)).
  eapply spec_eq.
  { apply (copy_push dbg h kf 0 (PHeap (c_data o) 0) (c_size o + 1) (l ++ [Some 0]) o).
    - rewrite C2. eapply read_heap0. apply heap_rep_push. exact HR.
    - rewrite slen_snoc. lia.
    - apply in_blk_ok; try reflexivity; try lia. cbn [kf fresh bk_len]. lia.
    - intros b' i E. injection E as <- _. pose proof (blk_range _ _ _ B). lia. }
  set (k' := set_chars kf (over (bk_at kf) 0 (l ++ [Some 0]))).
  set (o2 := set_capacity (set_data o (nb h)) n 64).
  assert (heap_rep (push h k') o2 l k' n /\ Inv (push h k') ((o2, l) :: (o, l) :: R)) as (H2 & I2).
  { eapply new_heap_rep; try reflexivity; try assumption; try lia.
    - cbn [k' set_chars bk_at kf fresh]. rewrite over_at, slen_snoc. destruct (Z.leb_spec 0 (slen l)), (Z.ltb_spec (slen l) (0 + (slen l + 1))); try lia.
      cbn [andb]. rewrite lget_snoc by lia. destruct (Z.ltb_spec (slen l - 0) (slen l)); [lia|reflexivity].
    - intros i Hi. cbn [k' set_chars bk_at kf fresh]. rewrite over_at, slen_snoc. destruct (Z.leb_spec 0 i), (Z.ltb_spec i (0 + (slen l + 1))); try lia.
      cbn [andb]. rewrite lget_snoc by lia. destruct (Z.ltb_spec (i - 0) (slen l)); [|lia]. f_equal. lia.
    - right. split; [reflexivity|]. apply set_capacity_ok; [lia|auto]. }
  apply Inv_swap in I2.
  destruct (decrement_shared dbg arena mal ar N _ _ _ _ _ _ _ o I2 (heap_rep_push _ _ _ _ _ _ HR) K Hr (c_size o)) as (D & I3).
  eapply spec_eq; [exact D|]. apply spec_this. apply spec_put_end.
  change (set_capacity (set_data o (nb h)) n is_large) with o2.
  split; [exact I3|]. exists k', n. split.
  { destruct H2 as (B2 & H2). split; [|exact H2]. rewrite (blk_upd _ _ _ _ _ (blk_push_old _ k' _ _ B)).
    pose proof (blk_range _ _ _ B). destruct (Z.eqb_spec (c_data o) (c_data o2)) as [Q|]; [cbn in Q; lia|exact B2]. }
  split; [right; reflexivity|lia].
Qed.

Lemma Keep_refused o l R e h' o' : Keep o l R e h' o' -> h_refused h' = true.
Proof. intros (_ & H & _). exact H. Qed.

Lemma mutable_data_spec0 h o l R : Inv h ((o, l) :: R) ->
  spec (let* o := this in
   if category o =? is_small then ret (PSelf 0)
   else if category o =? is_medium then ret (PHeap (c_data o) 0)
   else if category o =? is_large then
     let* r := refs (c_data o) in
     let* _ := (if 1 <? r then unshare dbg arena mal 0 else ret tt) in
     let* o1 := this in
     ret (PHeap (c_data o1) 0)
   else undef) h o
   (fun p h' o' => Inv h' ((o', l) :: R) /\ unique h' o' /\ p = data o' /\ (unique h o -> h' = h /\ o' = o)) (Keep o l R).
Proof.
  intros I. apply spec_this. destruct (Inv_head _ _ _ _ _ _ _ _ _ I) as ([S|(k & cap & HR)] & A).
  - pose proof (small_heapy _ _ S) as H. rewrite (small_cat _ H). apply spec_ret.
    rewrite (data_small _ H). split; [assumption|]. split; [left; assumption|]. split; auto.
  - pose proof (heap_heapy _ _ _ _ _ HR) as H. rewrite (heap_cat _ _ _ _ _ HR). destruct (bk_kind k) as [|r] eqn:K; cbn [is_small is_medium is_large Z.eqb Pos.eqb].
    + apply spec_ret. rewrite (data_heap _ H). split; [assumption|]. split; [eapply sole_unique; [eassumption|left; assumption]|]. split; auto.
    + eapply spec_eq; [eapply refs_ok; eassumption|].
      pose proof (refs_bound _ _ _ _ _ _ _ _ _ _ _ _ I HR K). destruct (Z.ltb_spec 1 r).
      * eapply spec_bnd; [eapply unshare_spec; try eassumption; lia|]. intros _ h' o' (I' & k' & cap' & HR' & S' & _).
        apply spec_this, spec_ret. rewrite (data_heap _ (heap_heapy _ _ _ _ _ HR')).
        split; [assumption|]. split; [eapply sole_unique; eassumption|]. split; [reflexivity|].
        intros U. destruct (unique_sole _ _ _ _ _ U HR) as [X|X]; rewrite K in X; [discriminate|]. injection X. lia.
      * apply spec_bret, spec_this, spec_ret. rewrite (data_heap _ H). split; [assumption|].
        split; [eapply sole_unique; [eassumption|right]; rewrite K; f_equal; lia|]. split; auto.
Qed.
Lemma mutable_data_spec h o l R : Inv h ((o, l) :: R) ->
  spec (mutable_data dbg arena mal) h o
   (fun p h' o' => Inv h' ((o', l) :: R) /\ unique h' o' /\ p = data o' /\ (unique h o -> h' = h /\ o' = o)) (Keep o l R).
Proof.
  intros I. unfold mutable_data. pose proof (mutable_data_spec0 h o l R I) as X.
  destruct arena; [exact X|]. eapply spec_noexc; [exact X|]. intros e h' o' (_ & Q & _). exact Q.
Qed.
Lemma begin_spec h o l R (E : exn -> heap -> core -> Prop) : Inv h ((o, l) :: R) ->
  spec (begin_ dbg arena mal) h o
   (fun p h' o' => Inv h' ((o', l) :: R) /\ unique h' o' /\ p = data o' /\ (unique h o -> h' = h /\ o' = o)) E.
Proof.
  intros I. unfold begin_. eapply spec_noexc; [apply mutable_data_spec; exact I|].
  intros e h' o' Q. eapply (Keep_refused _ _ _ _ _ _ Q).
Qed.

(** ** reserve *)
Definition ready (l : list (option Z)) (R : pairs) (n : Z) (h' : heap) (o' : core) : Prop :=
  grown l R n h' o' \/ (Inv h' ((o', l) :: R) /\ heapy o' = false /\ n <= max_small /\ sso_off dbg arena = false).
Lemma grown_capacity l R n h o : grown l R n h o -> exists c, capacity h o = Ret c h o /\ n <= c.
Proof.
  intros (I & k & cap & HR & S & L). exists cap. split; [|assumption]. rewrite (capacity_heap _ _ _ _ _ HR).
  destruct S as [-> | ->]; reflexivity.
Qed.
Lemma ready_capacity l R n h o : ready l R n h o -> exists c, capacity h o = Ret c h o /\ n <= c.
Proof. intros [G|(I & H & L & _)]; [eapply grown_capacity; eassumption|]. exists max_small. split; [apply capacity_small; assumption|assumption]. Qed.
Lemma capacity_assert l R n h o (Q : unit -> heap -> core -> Prop) E : ready l R n h o -> Q tt h o ->
  spec (let* c := capacity in assertM dbg (n <=? c)) h o Q E.
Proof.
  intros G H. destruct (ready_capacity _ _ _ _ _ G) as (c & C & L). eapply spec_eq; [exact C|].
  apply spec_assert_end; [apply Z.leb_le; lia|assumption].
Qed.

Lemma reserve_large_spec h o l R k cap r n :
  Inv h ((o, l) :: R) -> heap_rep h o l k cap -> bk_kind k = Counted r -> 0 <= n < 2 * limit ->
  spec (reserve_large dbg arena mal n) h o (fun _ h' o' => grown l R n h' o') (Keep o l R).
Proof.
  intros I HR K Hn. pose proof (heap_bound _ _ _ _ _ HR) as Hb. pose proof (heap_cap _ _ _ _ _ HR) as EC.
  pose proof (heap_cat _ _ _ _ _ HR) as CT. rewrite K in CT. pose proof HR as (B & L & C1 & C2 & C3 & C4 & C5 & C6).
  pose proof (refs_bound _ _ _ _ _ _ _ _ _ _ _ _ I HR K) as RB.
  unfold reserve_large. apply spec_this. apply spec_assert; [rewrite CT; reflexivity|].
  eapply spec_eq; [eapply refs_ok; eassumption|].
  destruct (Z.ltb_spec 1 r); [eapply unshare_spec; eassumption|].
  assert (r = 1) as -> by lia. rewrite EC.
  eapply spec_bnd with (Q1 := fun _ h' o' => grown l R n h' o').
  2:{ intros _ h' o' G. eapply capacity_assert; [left|]; exact G. }
  destruct (Z.ltb_spec cap n).
  2:{ apply spec_ret. split; [assumption|]. exists k, cap. split; [assumption|]. split; [right; assumption|lia]. }
  unfold reallocate. rewrite C2. apply spec_assoc. apply spec_assert.
  { apply andb_true_intro. split; apply Z.ltb_lt; lia. }
  pose proof (bytes_wrap (n + 1)) as V.
  destruct (Z.leb_spec M64 (n + 1)); [unfold M64 in *; lia|].
  destruct (Z.leb_spec M64 ((n + 1) * csize + 8)); [unfold M64 in *; lia|].
  apply spec_assoc. eapply spec_eq; [eapply refs_ok; eassumption|]. apply spec_assoc. apply spec_assert; [reflexivity|].
  apply spec_assoc. replace ((n + 1) * csize + 8) with (8 + (n + 1) * csize) by lia.
  eapply spec_bnd; [eapply (smart_realloc_spec h o l R k cap n 8 64); try eassumption; right; auto|].
  intros b h' o' (-> & Hc & k' & K1 & G).
  replace (8 + (n + 1) * csize - 8) with ((n + 1) * csize) by lia. rewrite bytes_back. replace (n + 1 - 1) with n by lia.
  destruct (G (set_capacity (set_data o b) n is_large)) as (HR2 & IV2); try reflexivity.
  { apply set_capacity_ok; [lia|right; reflexivity]. }
  rewrite K in K1. apply spec_assoc. eapply spec_eq; [exact (refs_ok _ _ _ _ _ _ o HR2 K1)|].
  apply spec_assoc. apply spec_assert; [reflexivity|]. apply spec_bret. apply spec_this. apply spec_put_end.
  split; [exact IV2|]. exists k', n. split; [exact HR2|]. split; [right; exact K1|lia].
Qed.

Lemma reserve_small_spec h o l R n :
  Inv h ((o, l) :: R) -> heapy o = false -> 0 <= n < 2 * limit ->
  spec (reserve_small dbg arena mal n) h o (fun _ h' o' => ready l R n h' o' /\ (max_medium < n -> grown l R n h' o'))
    (fun e h' o' => e = BadAlloc /\ h' = refuse h /\ o' = o).
Proof.
  intros I H Hn. destruct (Inv_head _ _ _ _ _ _ _ _ _ I) as (RP & A). pose proof (rep_small _ _ _ RP H) as S.
  assert (L : slen l <= max_small) by apply S. pose proof (slen_nonneg l) as L0.
  unfold reserve_small. apply spec_this. apply spec_assert; [rewrite (small_cat _ H); reflexivity|].
  destruct (negb (sso_off dbg arena) && (n <=? max_small)) eqn:SO.
  { apply andb_prop in SO. destruct SO as (SO1 & SO2). apply Z.leb_le in SO2. apply spec_ret. split; [|lia].
    right. split; [assumption|]. split; [assumption|]. split; [assumption|]. destruct (sso_off dbg arena); [discriminate|reflexivity]. }
  assert (HL : slen l <= n).
  { destruct (sso_off dbg arena) eqn:EO.
    - rewrite (i_off _ _ _ _ _ _ _ I EO o l (or_introl eq_refl) H). rewrite slen_nil. lia.
    - cbn [negb andb] in SO. apply Z.leb_gt in SO. lia. }
  assert (REP : forall kind cat, (kind = Plain /\ cat = 128 \/ kind = Counted 1 /\ cat = 64) -> n < limit ->
    let kf := fresh kind ar (n + 1) in
    let k' := set_chars kf (over (bk_at kf) 0 (l ++ [Some 0])) in
    let o2 := set_capacity (set_size (set_data o (nb h)) (slen l)) n cat in
    pod_copy dbg (PSelf 0) (PHeap (nb h) 0) (slen l + 1) (push h kf) o = Ret tt (push h k') o /\
    grown l R n (push h k') o2).
  { intros kind cat KC Hc kf k' o2. split.
    - apply copy_push.
      + apply read_small0. exact S.
      + apply slen_snoc.
      + apply in_blk_ok; try reflexivity; try lia. cbn [kf fresh bk_len]. lia.
      + intros b i E. discriminate.
    - assert (heap_rep (push h k') o2 l k' n /\ Inv (push h k') ((o2, l) :: (o, l) :: R)) as (H2 & I2).
      { eapply new_heap_rep; try reflexivity; try assumption; try lia.
        - cbn [k' set_chars bk_at kf fresh]. rewrite over_at, slen_snoc. destruct (Z.leb_spec 0 (slen l)), (Z.ltb_spec (slen l) (0 + (slen l + 1))); try lia.
          cbn [andb]. rewrite lget_snoc by lia. destruct (Z.ltb_spec (slen l - 0) (slen l)); [lia|reflexivity].
        - intros i Hi. cbn [k' set_chars bk_at kf fresh]. rewrite over_at, slen_snoc. destruct (Z.leb_spec 0 i), (Z.ltb_spec i (0 + (slen l + 1))); try lia.
          cbn [andb]. rewrite lget_snoc by lia. destruct (Z.ltb_spec (i - 0) (slen l)); [|lia]. f_equal. lia.
        - destruct KC as [(-> & ->)|(-> & ->)]; [left|right]; (split; [reflexivity|]); apply set_capacity_ok; auto; lia. }
      apply Inv_swap in I2. apply Inv_drop_small in I2; [|assumption].
      split; [exact I2|]. exists k', n. split; [exact H2|].
      split; [destruct KC as [(-> & _)|(-> & _)]; [left|right]; reflexivity|lia]. }
  destruct (Z.leb_spec n max_medium).
  - eapply spec_bnd; [eapply alloc_spec; [apply room_plain|exact I|exact A]|]. intros b h' o' (-> & -> & -> & Hb).
    destruct (REP Plain 128) as (P & G); [auto|lia|]. cbv zeta in P, G.
    eapply spec_eq; [apply small_size_ok; exact S|]. replace (1 + n) with (n + 1) by lia.
    eapply spec_eq; [exact P|]. apply spec_this. apply spec_put_end. rewrite bytes_back. replace (n + 1 - 1) with n by lia.
    split; [left; exact G|lia].
  - eapply spec_bnd; [eapply create_spec; [exact I|exact A|lia]|]. intros (b, c) h' o' (E & -> & -> & Hb). injection E as -> ->.
    destruct (REP (Counted 1) 64) as (P & G); [auto|lia|]. cbv zeta in P, G.
    eapply spec_eq; [apply small_size_ok; exact S|].
    eapply spec_eq; [exact P|]. apply spec_this. apply spec_put.
    eapply capacity_assert; [left; exact G|]. split; [left; exact G|intros; exact G].
Qed.

(** Local objects *)
Lemma spec_build {A} al (m : M A) h o (Q : core -> heap -> core -> Prop) (E : exn -> heap -> core -> Prop) :
  spec m h (blank al) (fun _ h' t' => Q t' h' o) (fun e h' _ => E e h' o) -> spec (build al m) h o Q E.
Proof. unfold spec, build. destruct (m h (blank al)); auto. Qed.
Lemma spec_on {A} (m : M A) t h o Q1 E1 (Q : A * core -> heap -> core -> Prop) (E : exn -> heap -> core -> Prop) :
  spec m h t Q1 E1 -> (forall a h' t', Q1 a h' t' -> Q (a, t') h' o) ->
  (forall e h' t', E1 e h' t' ->
     (exists lt S, Inv h' ((t', lt) :: S) /\ (forall h'', Inv h'' S -> flags h' h'' -> E e h'' o)) \/
     (arena = false /\ h_rfail h' = true /\ dangling h' t')) ->
  spec (on dbg arena t m) h o Q E.
Proof.
  intros H HQ HE. unfold spec, on in *. destruct (m h t) as [a h' t'|e h' t'|h'| |h']; try assumption.
  - apply HQ. assumption.
  - destruct (HE _ _ _ H) as [(lt & S & I & X)|(EA & F & D)].
    + destruct (destroy_ok dbg arena mal ar N _ _ _ _ o I) as (h'' & -> & I' & FL & _). apply X; assumption.
    + pose proof (destroy_dangling dbg arena h' t' o EA D F) as Y. unfold spec in Y.
      destruct (destroy dbg arena t' h' o); try contradiction; assumption.
Qed.

Lemma reserve_medium_spec h o l R k cap n :
  Inv h ((o, l) :: R) -> heap_rep h o l k cap -> bk_kind k = Plain -> 0 <= n < 2 * limit ->
  spec (reserve_medium dbg arena mal n) h o (fun _ h' o' => grown l R n h' o') (Keep o l R).
Proof.
  intros I HR K Hn. pose proof (heap_bound _ _ _ _ _ HR) as Hb. pose proof (heap_cap _ _ _ _ _ HR) as EC.
  pose proof (heap_cat _ _ _ _ _ HR) as CT. rewrite K in CT. pose proof HR as (B & L & C1 & C2 & C3 & C4 & C5 & C6).
  destruct (Inv_head _ _ _ _ _ _ _ _ _ I) as (RP & A).
  unfold reserve_medium. apply spec_this. apply spec_assert; [rewrite CT; reflexivity|]. rewrite EC.
  destruct (Z.leb_spec n cap).
  { apply spec_ret. split; [assumption|]. exists k, cap. split; [assumption|]. split; [left; assumption|lia]. }
  destruct (Z.leb_spec n max_medium).
  - rewrite C2. change ((slen l + 1) * csize) with (0 + (slen l + 1) * csize). change ((cap + 1) * csize) with (0 + (cap + 1) * csize).
    replace ((1 + n) * csize) with (0 + (n + 1) * csize) by lia.
    eapply spec_bnd; [eapply (smart_realloc_spec h o l R k cap n 0 128); try eassumption; left; auto|].
    intros b h' o' (-> & Hc & k' & K1 & G). apply spec_this, spec_put_end.
    rewrite Z.add_0_l, bytes_back. replace (n + 1 - 1) with n by lia.
    destruct (G (set_capacity (set_data o b) n is_medium)) as (H2 & I2); try reflexivity.
    { apply set_capacity_ok; [lia|left; reflexivity]. }
    split; [exact I2|]. exists k', n. split; [exact H2|]. split; [left; congruence|lia].
  - eapply spec_bnd with (Q1 := fun t h' o' => h' = h /\ o' = o /\ Inv h ((t, []) :: (o, l) :: R) /\ heapy t = false).
    { apply spec_build. eapply init_default_spec; [exact I|exact A|]. auto. }
    intros t h' o' (-> & -> & It & Ht).
    eapply spec_bnd with (Q1 := fun at1 h' o' => o' = o /\ Inv h' ((snd at1, l) :: (o, l) :: R) /\
       exists k' cap', heap_rep h' (snd at1) l k' cap' /\ sole k' /\ n <= cap').
    { eapply spec_on with (Q1 := fun _ h' t1 => Inv h' ((t1, l) :: (o, l) :: R) /\ exists k' cap', heap_rep h' t1 l k' cap' /\ sole k' /\ n <= cap')
                          (E1 := fun e h' t' => e = BadAlloc /\ h_refused h' = true /\ Inv h' ((t', []) :: (o, l) :: R)).
      - eapply spec_bnd2; [eapply reserve_small_spec; [exact It|exact Ht|lia]| |].
        { intros e h' o' (-> & -> & ->). split; [reflexivity|]. split; [reflexivity|]. apply Inv_refuse. exact It. }
        intros _ h1 t1 (_ & G). specialize (G ltac:(lia)).
        destruct (grown_capacity _ _ _ _ _ G) as (c & Ec & Hc). eapply spec_eq; [exact Ec|].
        apply spec_assert; [apply Z.leb_le; lia|]. apply spec_this, spec_put.
        destruct G as (I1 & k1 & cap1 & H1 & S1 & L1). pose proof H1 as (B1 & L1' & D1 & D2 & D3 & D4 & D5 & D6).
        pose proof (heap_bound _ _ _ _ _ H1) as Hb1.
        assert (HRo : exists ko co, heap_rep h1 o l ko co).
        { destruct (i_rep _ _ _ _ _ _ _ I1 o l) as (RPo & _); [right; left; reflexivity|].
          apply (rep_heapy _ _ _ RPo). exact (heap_heapy _ _ _ _ _ HR). }
        destruct HRo as (ko & co & HRo).
        assert (NE : c_data o <> c_data t1).
        { pose proof (others_not _ _ _ _ _ _ _ _ _ _ _ I1 H1 S1) as O0.
          pose proof (owners_0 _ _ O0 o l (or_introl eq_refl)) as F. unfold owns in F. rewrite (heap_heapy _ _ _ _ _ HR) in F.
          intros Q. rewrite Q, Z.eqb_refl in F. discriminate. }
        set (k2 := set_chars k1 (over (bk_at k1) 0 (l ++ [Some 0]))).
        eapply spec_ret_eq with (h' := upd_blk h1 (c_data t1) k2) (o' := set_size t1 (slen l)).
        { unfold pod_copy. assert (V : overlaps (PHeap (c_data o) 0) (PHeap (c_data t1) 0) (c_size o + 1) = false).
          { cbn [overlaps]. destruct (Z.eqb_spec (c_data o) (c_data t1)); [contradiction|reflexivity]. }
          rewrite V. unfold assertM. cbn [negb]. rewrite andb_false_r. unfold bnd, ret. rewrite C2.
          rewrite (read_heap0 _ _ _ _ _ _ HRo). cbn [write]. rewrite B1. rewrite slen_snoc.
          rewrite in_blk_ok by (try assumption; lia). reflexivity. }
        assert (H2 : heap_rep (upd_blk h1 (c_data t1) k2) (set_size t1 (slen l)) l k2 cap1).
        { unfold heap_rep. cbn [set_size c_data c_size k2 set_chars bk_live bk_len bk_at bk_kind].
          rewrite (blk_upd _ _ _ _ _ B1), Z.eqb_refl. repeat (split; [assumption || reflexivity || lia|]). split; [|split].
          - rewrite over_at, slen_snoc. destruct (Z.leb_spec 0 (slen l)), (Z.ltb_spec (slen l) (0 + (slen l + 1))); try lia.
            cbn [andb]. rewrite lget_snoc by lia. destruct (Z.ltb_spec (slen l - 0) (slen l)); [lia|reflexivity].
          - intros i Hi. rewrite over_at, slen_snoc. destruct (Z.leb_spec 0 i), (Z.ltb_spec i (0 + (slen l + 1))); try lia.
            cbn [andb]. rewrite lget_snoc by lia. destruct (Z.ltb_spec (i - 0) (slen l)); [|lia]. f_equal. lia.
          - destruct (bk_kind k1); eapply has_cap_ext; try exact D6; reflexivity. }
        split; [|exists k2, cap1; split; [exact H2|]; split; [exact S1|lia]].
        eapply Inv_upd; try exact H2; try eassumption; try reflexivity. left. exact S1.
      - intros [] h' t' X. split; [reflexivity|]. exact X.
      - intros e h' t' (-> & F & I'). left. exists [], ((o, l) :: R). split; [exact I'|].
        intros h'' I'' (F1 & F2). split; [reflexivity|]. split; [congruence|]. left. split; [reflexivity|exact I'']. }
    intros (u, t1) h' o' (-> & I1 & k1 & cap1 & H1 & S1 & L1). cbn [snd] in *.
    destruct (Inv_head _ _ _ _ _ _ _ _ _ I1) as (_ & At1). rewrite (set_ml_eq o t1), (set_ml_eq t1 o) by congruence.
    apply spec_put.
    assert (Ec : capacity h' t1 = Ret cap1 h' t1) by (rewrite (capacity_heap _ _ _ _ _ H1); destruct S1 as [-> | ->]; reflexivity).
    eapply spec_eq; [exact Ec|]. apply spec_assert; [apply Z.leb_le; lia|].
    pose proof I1 as I1'. apply Inv_swap in I1'.
    destruct (destroy_ok dbg arena mal ar N _ _ _ _ t1 I1') as (h2 & ED & I2 & FL & FB).
    eapply spec_ret_eq; [exact ED|]. split; [exact I2|].
    destruct (Inv_head _ _ _ _ _ _ _ _ _ I2) as (RP2 & _).
    destruct (rep_heapy _ _ _ RP2 (heap_heapy _ _ _ _ _ H1)) as (k2 & cap2 & H2). exists k2, cap2.
    split; [exact H2|].
    split; [|rewrite <- (heap_cap _ _ _ _ _ H2), (heap_cap _ _ _ _ _ H1); exact L1].
    assert (OW : owners (c_data t1) ((o, l) :: R) = 0) by (eapply others_not; [exact I1|exact H1|exact S1]).
    pose proof (FB (c_data t1) (owners_0 _ _ OW o l (or_introl eq_refl))) as E1.
    destruct H1 as (E2 & _). destruct H2 as (E3 & _). rewrite E1, E2 in E3. injection E3 as <-. exact S1.
Qed.
End S.
End Wide.
