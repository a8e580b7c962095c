(** Stepping through the model; allocation, unsharing, growing and shrinking. *)
Require Import ZArith List Bool Lia Permutation.
From Verif Require Import Base BaseProofs StrSpec StrModel StrProofs StrProofs2.
Import ListNotations.
Open Scope Z_scope.


Section Wide.
Context {ChT : CharType}.

(** std::terminate only after a refused request, undefined behaviour only after
    a failed realloc, no failed Assert. *)
Definition spec {A} (m : M A) (h : heap) (o : core) (Q : A -> heap -> core -> Prop) (E : exn -> heap -> core -> Prop) : Prop :=
  match m h o with
  | Ret a h' o' => Q a h' o'
  | Thr e h' o' => E e h' o'
  | Term h' => h_refused h' = true
  | AFail => False
  | UB h' => h_rfail h' = true
  end.

Lemma spec_bnd {A B} (m : M A) (f : A -> M B) h o Q Q1 E :
  spec m h o Q1 E -> (forall a h' o', Q1 a h' o' -> spec (f a) h' o' Q E) -> spec (bnd m f) h o Q E.
Proof. unfold spec, bnd. destruct (m h o) as [a h' o'|e h' o'|h'| |h']; auto. intros H K. exact (K _ _ _ H). Qed.
Lemma spec_eq {A B} (m : M A) (f : A -> M B) h o a h' o' Q E :
  m h o = Ret a h' o' -> spec (f a) h' o' Q E -> spec (bnd m f) h o Q E.
Proof. unfold spec, bnd. intros ->. auto. Qed.
Lemma spec_ret_eq {A} (m : M A) h o a h' o' (Q : A -> heap -> core -> Prop) E : m h o = Ret a h' o' -> Q a h' o' -> spec m h o Q E.
Proof. unfold spec. intros ->. auto. Qed.
Lemma spec_this {B} (f : core -> M B) h o Q E : spec (f o) h o Q E -> spec (bnd this f) h o Q E.
Proof. exact (fun x => x). Qed.
Lemma spec_put {B} o' (f : unit -> M B) h o Q E : spec (f tt) h o' Q E -> spec (bnd (put o') f) h o Q E.
Proof. exact (fun x => x). Qed.
Lemma spec_put_end o' h o (Q : unit -> heap -> core -> Prop) E : Q tt h o' -> spec (put o') h o Q E.
Proof. exact (fun x => x). Qed.
Lemma spec_size {B} (f : Z -> M B) h o Q E : spec (f (size o)) h o Q E -> spec (bnd size_m f) h o Q E.
Proof. exact (fun x => x). Qed.
Lemma spec_ret {A} (a : A) h o (Q : A -> heap -> core -> Prop) E : Q a h o -> spec (ret a) h o Q E.
Proof. exact (fun x => x). Qed.
Lemma spec_bret {A B} (a : A) (f : A -> M B) h o Q E : spec (f a) h o Q E -> spec (bnd (ret a) f) h o Q E.
Proof. exact (fun x => x). Qed.
Lemma spec_throw {A} e h o (Q : A -> heap -> core -> Prop) (E : exn -> heap -> core -> Prop) : E e h o -> spec (throw e) h o Q E.
Proof. exact (fun x => x). Qed.
Lemma spec_imp {A} (m : M A) h o (Q Q' : A -> heap -> core -> Prop) (E E' : exn -> heap -> core -> Prop) :
  spec m h o Q E -> (forall a h' o', Q a h' o' -> Q' a h' o') -> (forall e h' o', E e h' o' -> E' e h' o') -> spec m h o Q' E'.
Proof. unfold spec. destruct (m h o); auto. Qed.
Lemma spec_bnd2 {A B} (m : M A) (f : A -> M B) h o Q Q1 (E E1 : exn -> heap -> core -> Prop) :
  spec m h o Q1 E1 -> (forall e h' o', E1 e h' o' -> E e h' o') ->
  (forall a h' o', Q1 a h' o' -> spec (f a) h' o' Q E) -> spec (bnd m f) h o Q E.
Proof. intros. eapply spec_bnd; [|eassumption]. eapply spec_imp; eauto. Qed.
Lemma spec_noexc {A} (m : M A) h o (Q : A -> heap -> core -> Prop) (E E' : exn -> heap -> core -> Prop) :
  spec m h o Q E -> (forall e h' o', E e h' o' -> h_refused h' = true) -> spec (noexc m) h o Q E'.
Proof. unfold spec, noexc. destruct (m h o); eauto. Qed.
Lemma bnd_assoc {A B C} (m : M A) (f : A -> M B) (g : B -> M C) h o : bnd (bnd m f) g h o = bnd m (fun a => bnd (f a) g) h o.
Proof. unfold bnd. destruct (m h o); reflexivity. Qed.
Lemma spec_assoc {A B C} (m : M A) (f : A -> M B) (g : B -> M C) h o Q E :
  spec (bnd m (fun a => bnd (f a) g)) h o Q E -> spec (bnd (bnd m f) g) h o Q E.
Proof. unfold spec. rewrite bnd_assoc. auto. Qed.
Lemma spec_assert {B} dbg c (f : unit -> M B) h o Q E : c = true -> spec (f tt) h o Q E -> spec (bnd (assertM dbg c) f) h o Q E.
Proof. intros -> H. unfold assertM. rewrite andb_false_r. exact H. Qed.
Lemma spec_assert_end dbg c h o (Q : unit -> heap -> core -> Prop) E : c = true -> Q tt h o -> spec (assertM dbg c) h o Q E.
Proof. intros -> H. unfold assertM. rewrite andb_false_r. exact H. Qed.
Lemma spec_if {A} (c : bool) (m m' : M A) h o Q E :
  (c = true -> spec m h o Q E) -> (c = false -> spec m' h o Q E) -> spec (if c then m else m') h o Q E.
Proof. destruct c; auto. Qed.
Lemma spec_bif {A B} (c : bool) (m m' : M A) (f : A -> M B) h o Q E :
  (c = true -> spec (bnd m f) h o Q E) -> (c = false -> spec (bnd m' f) h o Q E) -> spec (bnd (if c then m else m') f) h o Q E.
Proof. destruct c; auto. Qed.

(** Characters at a position, read and written. *)
Lemma over_at f off x i : over f off x i = if (off <=? i) && (i <? off + slen x) then lget x (i - off) else f i.
Proof. reflexivity. Qed.
Lemma chars_piece f l off n : (forall i, 0 <= i < slen l -> lget l i = f i) -> 0 <= off -> 0 <= n -> off + n <= slen l ->
  chars_from f off n = piece off n l.
Proof.
  intros G H1 H2 H3. apply lext; [rewrite slen_chars, slen_piece by assumption; reflexivity|].
  rewrite slen_chars by assumption. intros i Hi. rewrite lget_chars, lget_piece by assumption. symmetry. apply G. lia.
Qed.
Lemma piece_all (l : list (option Z)) : piece 0 (slen l) l = l.
Proof.
  apply lext; [apply slen_piece; pose proof (slen_nonneg l); lia|].
  rewrite slen_piece by (pose proof (slen_nonneg l); lia). intros i Hi. rewrite lget_piece by lia. reflexivity.
Qed.
Lemma chars_zero f l : (forall i, 0 <= i < slen l -> lget l i = f i) -> f (slen l) = Some 0 ->
  chars_from f 0 (slen l + 1) = l ++ [Some 0].
Proof.
  intros G Z0. pose proof (slen_nonneg l). apply lext.
  - rewrite slen_chars, slen_app, slen_cons, slen_nil by lia. lia.
  - rewrite slen_chars by lia. intros i Hi. rewrite lget_chars, lget_app by lia. destruct (Z.ltb_spec i (slen l)).
    + symmetry. apply G. lia.
    + replace i with (slen l) by lia. rewrite Z.sub_diag. exact Z0.
Qed.

Lemma data_heap o : heapy o = true -> data o = PHeap (c_data o) 0.
Proof. unfold heapy, data. destruct (category o =? is_small); [discriminate|reflexivity]. Qed.
Lemma data_small o : heapy o = false -> data o = PSelf 0.
Proof. unfold heapy, data. destruct (category o =? is_small); [reflexivity|discriminate]. Qed.
Lemma small_cat o : heapy o = false -> category o = 0.
Proof. unfold heapy, is_small. destruct (Z.eqb_spec (category o) 0); [auto|discriminate]. Qed.
Lemma heap_cat h o l k cap : heap_rep h o l k cap -> category o = match bk_kind k with Plain => 128 | Counted _ => 64 end.
Proof. intros (_ & _ & _ & _ & _ & _ & _ & C). destruct (bk_kind k); [eapply cat_medium|eapply cat_large]; eassumption. Qed.
Lemma heap_cap h o l k cap : heap_rep h o l k cap -> ml_capacity o = cap.
Proof. intros (_ & _ & _ & _ & _ & _ & _ & C). destruct (bk_kind k); eapply ml_capacity_ok; eauto. Qed.
Lemma heap_bound h o l k cap : heap_rep h o l k cap -> 0 <= slen l <= cap /\ cap < limit.
Proof.
  intros (_ & _ & _ & _ & L & _ & _ & C). pose proof (slen_nonneg l).
  assert (0 <= cap < limit) by (destruct (bk_kind k); apply C). lia.
Qed.
Lemma rep_bound h o l : rep h o l -> 0 <= slen l < limit.
Proof.
  intros [(L & _)|(k & cap & R)]; [pose proof (slen_nonneg l); lia|]. pose proof (heap_bound _ _ _ _ _ R). lia.
Qed.

Lemma read_own h o l off n : rep h o l -> 0 <= off -> 0 <= n -> off + n <= slen l ->
  read (ptr_add (data o) off) n h o = Ret (piece off n l) h o.
Proof.
  intros R H1 H2 H3. destruct R as [R|(k & cap & R)].
  - rewrite data_small by (eapply small_heapy; eassumption). destruct R as (L & _ & _ & G). cbn [ptr_add read Z.add].
    destruct (Z.leb_spec 0 off), (Z.leb_spec 0 n), (Z.leb_spec (off + n) num_small); try lia. cbn [andb].
    rewrite (chars_piece _ l); auto.
  - pose proof (heap_bound _ _ _ _ _ R). rewrite data_heap by (eapply heap_heapy; eassumption). destruct R as (B & L & C & _ & _ & _ & G & _).
    cbn [ptr_add read Z.add]. rewrite B. unfold in_blk. rewrite L, C.
    destruct (Z.leb_spec 0 off), (Z.leb_spec 0 n), (Z.leb_spec (off + n) (cap + 1)); try lia. cbn [andb].
    rewrite (chars_piece _ l); auto.
Qed.
Lemma read_heap h o l k cap off n t : heap_rep h o l k cap -> 0 <= off -> 0 <= n -> off + n <= slen l ->
  read (PHeap (c_data o) off) n h t = Ret (piece off n l) h t.
Proof.
  intros R H1 H2 H3. pose proof (heap_bound _ _ _ _ _ R). destruct R as (B & L & C & _ & _ & _ & G & _).
  cbn [read]. rewrite B. unfold in_blk. rewrite L, C.
  destruct (Z.leb_spec 0 off), (Z.leb_spec 0 n), (Z.leb_spec (off + n) (cap + 1)); try lia. cbn [andb].
  rewrite (chars_piece _ l); auto.
Qed.
Lemma read_heap0 h o l k cap t : heap_rep h o l k cap -> read (PHeap (c_data o) 0) (slen l + 1) h t = Ret (l ++ [Some 0]) h t.
Proof.
  intros R. pose proof (heap_bound _ _ _ _ _ R). destruct R as (B & L & C & _ & _ & T & G & _).
  cbn [read]. rewrite B. unfold in_blk. rewrite L, C.
  destruct (Z.leb_spec 0 0), (Z.leb_spec 0 (slen l + 1)), (Z.leb_spec (0 + (slen l + 1)) (cap + 1)); try lia. cbn [andb].
  rewrite (chars_zero _ l); auto.
Qed.
Lemma read_small0 h o l : small_rep o l -> read (PSelf 0) (slen l + 1) h o = Ret (l ++ [Some 0]) h o.
Proof.
  intros (L & _ & T & G). pose proof (slen_nonneg l). cbn [read].
  destruct (Z.leb_spec 0 0), (Z.leb_spec 0 (slen l + 1)), (Z.leb_spec (0 + (slen l + 1)) num_small); try lia. cbn [andb].
  rewrite (chars_zero _ l); auto. rewrite T. reflexivity.
Qed.
Lemma read_term h o l : rep h o l -> read (ptr_add (data o) (size o)) 1 h o = Ret [Some 0] h o.
Proof.
  intros R. rewrite (rep_size _ _ _ R). pose proof (slen_nonneg l). destruct R as [R|(k & cap & R)].
  - rewrite data_small by (eapply small_heapy; eassumption). destruct R as (L & _ & T & _). cbn [ptr_add read Z.add].
    destruct (Z.leb_spec 0 (slen l)), (Z.leb_spec 0 1), (Z.leb_spec (slen l + 1) num_small); try lia. cbn [andb].
    unfold chars_from. change (Z.to_nat 1) with 1%nat. cbn [seq map Z.of_nat]. rewrite Z.add_0_r, T. reflexivity.
  - pose proof (heap_bound _ _ _ _ _ R). rewrite data_heap by (eapply heap_heapy; eassumption). destruct R as (B & L & C & _ & _ & T & _).
    cbn [ptr_add read Z.add]. rewrite B. unfold in_blk. rewrite L, C.
    destruct (Z.leb_spec 0 (slen l)), (Z.leb_spec 0 1), (Z.leb_spec (slen l + 1) (cap + 1)); try lia. cbn [andb].
    unfold chars_from. change (Z.to_nat 1) with 1%nat. cbn [seq map Z.of_nat]. rewrite Z.add_0_r, T. reflexivity.
Qed.

(** A source of characters: memory elsewhere or a string in the list. *)
Definition src (S : pairs) (p : ptr) (n : Z) (x : list (option Z)) : Prop :=
  0 <= n /\ slen x = n /\
  match p with
  | PExt l => n <= slen l /\ x = stake n l
  | PHeap b off => 0 <= off /\ exists o l, In (o, l) S /\ heapy o = true /\ c_data o = b /\ off + n <= slen l /\ x = piece off n l
  | PSelf _ => False
  end.
Lemma src_mono S S' p n x : (forall y, In y S -> In y S') -> src S p n x -> src S' p n x.
Proof.
  intros H (A & B & C). split; [assumption|]. split; [assumption|]. destruct p; try assumption.
  destruct C as (C & o & l & D & E). split; [assumption|]. exists o, l. auto.
Qed.

Lemma write_push h k off x o : in_blk k off (slen x) = true ->
  write (PHeap (nb h) off) x (push h k) o = Ret tt (push h (set_chars k (over (bk_at k) off x))) o.
Proof. intros H. cbn [write]. rewrite blk_push_new, H, upd_push. reflexivity. Qed.
Lemma copy_push dbg h k off p n x o : read p n (push h k) o = Ret x (push h k) o -> slen x = n ->
  in_blk k off n = true -> (forall b i, p = PHeap b i -> b <> nb h) ->
  pod_copy dbg p (PHeap (nb h) off) n (push h k) o = Ret tt (push h (set_chars k (over (bk_at k) off x))) o.
Proof.
  intros H L I P. unfold pod_copy.
  assert (overlaps p (PHeap (nb h) off) n = false) as V.
  { destruct p as [| b i|]; try reflexivity. cbn [overlaps]. destruct (Z.eqb_spec b (nb h)); [|reflexivity].
    exfalso. eapply P; eauto. }
  rewrite V. unfold bnd, assertM. cbn [negb]. rewrite andb_false_r. cbn [ret]. rewrite H.
  apply write_push. rewrite L. assumption.
Qed.

Definition fresh (kind : bkind) (res len : Z) : block :=
  {| bk_kind := kind; bk_res := res; bk_len := len; bk_at := fun _ => None; bk_live := true |}.
Definition refuse (h : heap) : heap :=
  {| h_blocks := h_blocks h; h_calls := S (h_calls h); h_refused := true; h_rfail := h_rfail h |}.
Definition flags (h h' : heap) : Prop := h_refused h' = h_refused h /\ h_rfail h' = h_rfail h.
Lemma flags_refl h : flags h h. Proof. split; reflexivity. Qed.
Lemma flags_trans a b c : flags a b -> flags b c -> flags a c.
Proof. unfold flags. intuition congruence. Qed.

Definition dangling (h : heap) (o : core) : Prop :=
  (category o = 128 \/ category o = 64) /\ exists k, blk h (c_data o) = Some k /\ bk_live k = false.

Section S.
Variables (dbg arena : bool) (mal : nat -> Z -> bool) (ar N : Z).
Notation Inv := (StrProofs2.Inv dbg arena mal ar N).

(** A failed operation of string_core that changed nothing, except that a
    failed realloc takes the characters away. *)
Definition Keep (o : core) (l : list (option Z)) (R : pairs) (e : exn) (h' : heap) (o' : core) : Prop :=
  e = BadAlloc /\ h_refused h' = true /\
  ((o' = o /\ Inv h' ((o, l) :: R)) \/
   (heapy o = true /\ arena = false /\ h_rfail h' = true /\ dangling h' o' /\ Inv h' R)).
Definition unique (h : heap) (o : core) : Prop :=
  heapy o = false \/ exists k, blk h (c_data o) = Some k /\ (bk_kind k = Plain \/ bk_kind k = Counted 1).

Lemma Inv_head h o l R : Inv h ((o, l) :: R) -> rep h o l /\ c_al o = ar.
Proof. intros I. apply (i_rep _ _ _ _ _ _ _ I o l). left. reflexivity. Qed.
Lemma Inv_al h o l R : Inv h ((o, l) :: R) -> (arena && dbg && (c_al o =? 0)) = false.
Proof.
  intros I. destruct (Inv_head _ _ _ _ I) as (_ & E). rewrite E. pose proof (i_ar _ _ _ _ _ _ _ I) as X.
  destruct arena, dbg; try reflexivity. cbn [andb]. destruct (Z.eqb_spec ar 0); [exfalso; exact (X eq_refl e)|reflexivity].
Qed.
Lemma al_ok h R o : Inv h R -> c_al o = ar -> (arena && dbg && (c_al o =? 0)) = false.
Proof.
  intros I E. rewrite E. pose proof (i_ar _ _ _ _ _ _ _ I) as X.
  destruct arena, dbg; try reflexivity. cbn [andb]. destruct (Z.eqb_spec ar 0); [exfalso; exact (X eq_refl e)|reflexivity].
Qed.
Lemma Inv_refuse h S : Inv h S -> Inv (refuse h) S.
Proof. apply Inv_blocks. reflexivity. Qed.

Lemma read_src h S p n x o : Inv h S -> src S p n x -> read p n h o = Ret x h o.
Proof.
  intros I (Hn & L & C). destruct p as [|b off|l0]; [contradiction| |].
  - destruct C as (H0 & oj & lj & X & Y & D & F & ->). subst b.
    destruct (i_rep _ _ _ _ _ _ _ I _ _ X) as (R & _). destruct (rep_heapy _ _ _ R Y) as (k & cap & R').
    eapply read_heap; eauto.
  - destruct C as (C & ->). cbn [read]. destruct (Z.leb_spec 0 n), (Z.leb_spec n (slen l0)); try lia. reflexivity.
Qed.
Lemma src_not h S p n x : Inv h S -> src S p n x -> forall b i, p = PHeap b i -> 0 <= b < nb h.
Proof.
  intros I (Hn & L & C) b i ->. destruct C as (H0 & oj & lj & X & Y & D & _). subst b.
  destruct (i_rep _ _ _ _ _ _ _ I _ _ X) as (R & _). destruct (rep_heapy _ _ _ R Y) as (k & cap & R').
  destruct R' as (B & _). eapply blk_range. eassumption.
Qed.
(** Blocks pushed later do not disturb what is there. *)
Lemma rep_push h k o l : rep h o l -> rep (push h k) o l.
Proof.
  intros [R|(k' & cap & B & R)]; [left; assumption|]. right. exists k', cap. split; [apply blk_push_old|]; assumption.
Qed.
Lemma heap_rep_push h k o l k' cap : heap_rep h o l k' cap -> heap_rep (push h k) o l k' cap.
Proof. intros (B & R). split; [apply blk_push_old|]; assumption. Qed.
Lemma read_src_push h k S p n x o : Inv h S -> src S p n x -> read p n (push h k) o = Ret x (push h k) o.
Proof.
  intros I (Hn & L & C). destruct p as [|b off|l0]; [contradiction| |].
  - destruct C as (H0 & oj & lj & X & Y & D & F & ->). subst b.
    destruct (i_rep _ _ _ _ _ _ _ I _ _ X) as (R & _). destruct (rep_heapy _ _ _ R Y) as (k' & cap & R').
    eapply read_heap; eauto. apply heap_rep_push. eassumption.
  - destruct C as (C & ->). cbn [read]. destruct (Z.leb_spec 0 n), (Z.leb_spec n (slen l0)); try lia. reflexivity.
Qed.

(** ** Allocation *)
Lemma room_plain n : (n * csize - header Plain) / csize = n.
Proof. cbn [header]. rewrite Z.sub_0_r. apply bytes_back. Qed.
Lemma room_counted n r : (n * csize + 8 - header (Counted r)) / csize = n.
Proof. cbn [header]. replace (n * csize + 8 - 8) with (n * csize) by lia. apply bytes_back. Qed.
Lemma alloc_spec kind bytes len h o R : (bytes - header kind) / csize = len -> Inv h R -> c_al o = ar ->
  spec (alloc dbg arena mal kind bytes) h o
    (fun b h' o' => b = nb h /\ h' = push h (fresh kind ar len) /\ o' = o /\ bytes <= 2 ^ 62)
    (fun e h' o' => e = BadAlloc /\ h' = refuse h /\ o' = o).
Proof.
  intros <- I E. unfold spec, alloc. rewrite (al_ok _ _ _ I E).
  destruct (mal (h_calls h) bytes) eqn:Q.
  - rewrite E. repeat split. apply (i_sane _ _ _ _ _ _ _ I _ _ Q).
  - repeat split.
Qed.
Lemma create_spec n h o R : Inv h R -> c_al o = ar -> 0 <= n < 2 * limit ->
  spec (create dbg arena mal n) h o
    (fun bc h' o' => bc = (nb h, n) /\ h' = push h (fresh (Counted 1) ar (n + 1)) /\ o' = o /\ n < limit)
    (fun e h' o' => e = BadAlloc /\ h' = refuse h /\ o' = o).
Proof.
  intros I E Hn. unfold create. apply spec_this. rewrite (al_ok _ _ _ I E).
  pose proof (bytes_wrap (n + 1)) as V.
  destruct (Z.leb_spec M64 (n + 1)); [unfold M64 in *; lia|].
  destruct (Z.leb_spec M64 ((n + 1) * csize + 8)); [unfold M64 in *; lia|].
  eapply spec_bnd; [eapply alloc_spec; [apply room_counted|eassumption|eassumption]|].
  intros a h' o' (-> & -> & -> & B). apply spec_ret. replace ((n + 1) * csize + 8 - 8) with ((n + 1) * csize) by lia. rewrite bytes_back.
  pose proof (bytes_limit (n + 1)). repeat split; [f_equal; lia|lia].
Qed.

(** A fresh block filled with [l] and the terminator serves as the characters of a string. *)
Lemma new_heap_rep h R o l k cap :
  Inv h R -> c_data o = nb h -> c_size o = slen l -> c_al o = ar -> bk_res k = ar -> bk_live k = true -> bk_len k = cap + 1 ->
  slen l <= cap -> bk_at k (slen l) = Some 0 -> (forall i, 0 <= i < slen l -> lget l i = bk_at k i) ->
  (bk_kind k = Plain /\ has_cap o cap 128 \/ bk_kind k = Counted 1 /\ has_cap o cap 64) ->
  heap_rep (push h k) o l k cap /\ Inv (push h k) ((o, l) :: R).
Proof.
  intros I D S A E L C1 C2 C3 C4 K.
  assert (HR : heap_rep (push h k) o l k cap).
  { split; [rewrite D; apply blk_push_new|]. repeat (split; [assumption|]). destruct K as [(-> & K)|(-> & K)]; assumption. }
  split; [assumption|]. eapply Inv_push; try eassumption. destruct K as [(K & _)|(K & _)]; auto.
Qed.

(** ** capacity *)
Lemma capacity_small h o : heapy o = false -> capacity h o = Ret max_small h o.
Proof. intros H. unfold capacity, bnd, this. rewrite (small_cat _ H). reflexivity. Qed.
Lemma capacity_heap h o l k cap : heap_rep h o l k cap ->
  capacity h o = Ret (match bk_kind k with Plain => cap | Counted r => if 1 <? r then slen l else cap end) h o.
Proof.
  intros R. pose proof (heap_cat _ _ _ _ _ R) as C. pose proof (heap_cap _ _ _ _ _ R) as P.
  destruct R as (B & L & _ & S & _). unfold capacity, bnd, this. rewrite C.
  destruct (bk_kind k) as [|r] eqn:K; cbn [is_small is_large is_medium Z.eqb Pos.eqb].
  - rewrite P. reflexivity.
  - unfold refs. rewrite B, L, K, P, S. reflexivity.
Qed.
Lemma capacity_ok h o l : rep h o l -> exists c, capacity h o = Ret c h o /\ slen l <= c.
Proof.
  intros [R|(k & cap & R)].
  - exists max_small. split; [apply capacity_small; eapply small_heapy; eassumption|apply R].
  - eexists. split; [eapply capacity_heap; eassumption|]. pose proof (heap_bound _ _ _ _ _ R).
    destruct (bk_kind k) as [|r]; [lia|]. destruct (1 <? r); lia.
Qed.
Lemma check_ok h o l : rep h o l -> check_sane dbg h o = Ret tt h o.
Proof.
  intros R. unfold check_sane. destruct dbg eqn:ED; [|reflexivity].
  destruct (capacity_ok _ _ _ R) as (c & C & L). unfold bnd, this. rewrite C, (read_term _ _ _ R), (rep_size _ _ _ R).
  destruct (Z.leb_spec (slen l) c); [|lia]. reflexivity.
Qed.
Lemma check_dangling h o (Q : unit -> heap -> core -> Prop) E : dangling h o -> h_rfail h = true -> (forall e h' o', h' = h -> o' = o -> dbg = false -> Q e h' o') ->
  spec (check_sane dbg) h o Q E.
Proof.
  intros ([C|C] & k & B & L) F H; unfold spec, check_sane; destruct dbg eqn:ED; try (apply H; auto).
  - unfold bnd, this, capacity, bnd, this. rewrite C. cbn [is_small is_large is_medium Z.eqb Pos.eqb].
    unfold data. rewrite C. cbn [is_small is_large is_medium Z.eqb Pos.eqb ptr_add ret read]. rewrite B. unfold in_blk. rewrite L. cbn [andb]. exact F.
  - unfold bnd, this, capacity, bnd, this. rewrite C. cbn [is_small is_large is_medium Z.eqb Pos.eqb].
    unfold refs. rewrite B, L. exact F.
Qed.

(** guarded functions *)
Definition settled (h : heap) (o : core) : Prop := (exists l, rep h o l) \/ (h_rfail h = true /\ dangling h o).
Lemma check_settled {A} (m : M A) h o Q E : settled h o -> spec m h o Q E -> spec (bnd (check_sane dbg) (fun _ => m)) h o Q E.
Proof.
  intros [(l & R)|(F & D)] H.
  - eapply spec_eq; [eapply check_ok; eassumption|exact H].
  - eapply spec_bnd.
    + eapply check_dangling with (Q := fun _ h' o' => h' = h /\ o' = o); auto.
    + intros _ h' o' (-> & ->). exact H.
Qed.
Lemma spec_guarded {A} (m : M A) h o (Q : A -> heap -> core -> Prop) (E : exn -> heap -> core -> Prop) l :
  rep h o l -> spec m h o Q E ->
  (forall a h' o', Q a h' o' -> settled h' o') -> (forall e h' o', E e h' o' -> settled h' o') ->
  spec (guarded dbg m) h o Q E.
Proof.
  intros R H HQ HE. unfold guarded. eapply spec_eq; [eapply check_ok; eassumption|].
  unfold spec in *. destruct (m h o) as [a h' o'|e h' o'|h'| |h']; try assumption.
  - apply (check_settled (ret a) h' o' Q E); [eapply HQ; eassumption|exact H].
  - apply (check_settled (throw e) h' o' Q E); [eapply HE; eassumption|exact H].
Qed.
Lemma Inv_settled h o l R : Inv h ((o, l) :: R) -> settled h o.
Proof. intros I. left. exists l. apply (Inv_head _ _ _ _ I). Qed.
Lemma Keep_settled o l R e h' o' : Keep o l R e h' o' -> settled h' o'.
Proof.
  intros (_ & _ & [(-> & I)|(_ & _ & F & D & _)]); [eapply Inv_settled; eassumption|right; auto].
Qed.

(** ** The destructor *)
Lemma free_ok h o l k cap t : heap_rep h o l k cap -> bk_res k = 0 ->
  free_block arena (match bk_kind k with Plain => false | Counted _ => true end) (c_data o)
    ((cap + 1) * csize + match bk_kind k with Plain => 0 | Counted _ => 8 end) h t = Ret tt (upd_blk h (c_data o) (kill k)) t.
Proof.
  intros (B & L & LN & _) E. unfold free_block. rewrite B, L, E, LN. destruct (bk_kind k); rewrite ?Z.eqb_refl, orb_true_r; reflexivity.
Qed.
Lemma flags_upd h b k : flags h (upd_blk h b k). Proof. split; reflexivity. Qed.
Lemma flags_push h k : flags h (push h k). Proof. split; reflexivity. Qed.
Lemma refs_ok h o l k cap r t : heap_rep h o l k cap -> bk_kind k = Counted r -> refs (c_data o) h t = Ret r h t.
Proof. intros (B & L & _) K. unfold refs. rewrite B, L, K. reflexivity. Qed.
Lemma set_refs_ok h o l k cap r r' t : heap_rep h o l k cap -> bk_kind k = Counted r ->
  set_refs (c_data o) r' h t = Ret tt (upd_blk h (c_data o) (with_refs k r')) t.
Proof. intros (B & L & _) K. unfold set_refs. rewrite B, L, K. reflexivity. Qed.
Lemma refs_bound h o l R k cap r : Inv h ((o, l) :: R) -> heap_rep h o l k cap -> bk_kind k = Counted r -> 1 <= r <= N.
Proof.
  intros I HR K. pose proof (heap_heapy _ _ _ _ _ HR) as H. destruct HR as (B & L & _).
  pose proof (i_blk _ _ _ _ _ _ _ I _ _ B L) as (_ & X). rewrite K, owners_cons, owns_self in X by assumption.
  pose proof (owners_nonneg (c_data o) R). ar_cases ar; lia.
Qed.
Lemma res_ok h o l R k cap : Inv h ((o, l) :: R) -> heap_rep h o l k cap -> bk_res k = ar.
Proof. intros I (B & L & _). apply (i_blk _ _ _ _ _ _ _ I _ _ B L). Qed.
Lemma ar_zero h R : arena = false -> Inv h R -> ar = 0.
Proof. intros E I. pose proof (i_ar _ _ _ _ _ _ _ I) as X. rewrite E in X. exact X. Qed.
Lemma ar_arena h R : ar <> 0 -> Inv h R -> arena = true.
Proof. intros E I. pose proof (i_ar _ _ _ _ _ _ _ I) as X. destruct arena; [reflexivity|contradiction]. Qed.

(** decrement of a counter that is shared *)
Lemma decrement_shared h o l R k cap r t : Inv h ((o, l) :: R) -> heap_rep h o l k cap -> bk_kind k = Counted r -> 1 < r ->
  forall bytes, decrement_refs dbg arena (c_al o) (c_data o) bytes h t = Ret tt (upd_blk h (c_data o) (with_refs k (r - 1))) t /\
  Inv (upd_blk h (c_data o) (with_refs k (r - 1))) R.
Proof.
  intros I HR K H1 bytes. pose proof (refs_bound _ _ _ _ _ _ _ I HR K) as B. pose proof (i_N _ _ _ _ _ _ _ I) as HN.
  split; [|eapply Inv_decr; eauto].
  unfold decrement_refs, bnd. rewrite (refs_ok _ _ _ _ _ _ _ HR K).
  replace (sub64 r 1) with (r - 1) by (unfold sub64; symmetry; apply Z.mod_small; unfold M64; lia).
  rewrite (set_refs_ok _ _ _ _ _ _ _ _ HR K). unfold assertM.
  destruct (Z.ltb_spec 0 r); [|lia]. cbn [negb]. rewrite andb_false_r. cbn [ret].
  destruct (Z.eqb_spec r 1); [lia|]. reflexivity.
Qed.
Lemma upd_upd h b k k0 k' : blk h b = Some k0 -> upd_blk (upd_blk h b k) b k' = upd_blk h b k'.
Proof.
  intros _. unfold upd_blk. cbn. f_equal.
  generalize (Z.to_nat b). generalize (h_blocks h). induction l as [|x l IH]; intros [|n]; cbn; try reflexivity. rewrite IH. reflexivity.
Qed.
Lemma destroy_ok h o l R t : Inv h ((o, l) :: R) ->
  exists h', destroy dbg arena o h t = Ret tt h' t /\ Inv h' R /\ flags h h' /\ forall b, owns b o = false -> blk h' b = blk h b.
Proof.
  intros I. destruct (Inv_head _ _ _ _ I) as (HR & A). unfold destroy. destruct (heapy o) eqn:H.
  2:{ rewrite (small_cat _ H). exists h. split; [reflexivity|]. split; [eapply Inv_drop_small; eassumption|]. split; [apply flags_refl|reflexivity]. }
  pose proof H as Hh.
  destruct (rep_heapy _ _ _ HR H) as (k & cap & HR'). pose proof (heap_cat _ _ _ _ _ HR') as C.
  assert (FR : forall k' b, owns b o = false -> blk (upd_blk h (c_data o) k') b = blk h b).
  { intros k' b O. destruct HR' as (B & _). rewrite (blk_upd _ _ _ _ _ B). destruct (Z.eqb_spec (c_data o) b) as [E|]; [|reflexivity].
    unfold owns in O. rewrite Hh, E, Z.eqb_refl in O. discriminate. }
  unfold heapy in H. destruct (category o =? is_small); [discriminate|]. rewrite A.
  destruct (Z.eq_dec ar 0) as [Z0|EA].
  2:{ pose proof (ar_arena _ _ EA I) as AT. assert (W : arena && negb (ar =? 0) = true).
    { rewrite AT. destruct (Z.eqb_spec ar 0); [contradiction|reflexivity]. }
    rewrite W.
    exists h. split; [reflexivity|]. split; [eapply Inv_weaken; eauto; exact I|]. split; [apply flags_refl|reflexivity]. }
  - assert (W : arena && negb (ar =? 0) = false) by (rewrite Z0; apply andb_false_r). rewrite W. pose proof (res_ok _ _ _ _ _ _ I HR') as Y. rewrite Z0 in Y.
    rewrite C. destruct (bk_kind k) as [|r] eqn:K; cbn [is_medium Z.eqb Pos.eqb].
    + exists (upd_blk h (c_data o) (kill k)). split; [|split; [eapply Inv_free; eauto|split; [apply flags_upd|apply FR]]].
      pose proof (free_ok _ _ _ _ _ t HR' Y) as F. rewrite K, Z.add_0_r in F. rewrite (heap_cap _ _ _ _ _ HR'). exact F.
    + destruct (Z_lt_dec 1 r).
      * destruct (decrement_shared _ _ _ _ _ _ _ t I HR' K l0 ((ml_capacity o + 1) * csize + 8)) as (P & Q). rewrite A in P.
        eexists. split; [exact P|]. split; [exact Q|]. split; [apply flags_upd|apply FR].
      * pose proof (refs_bound _ _ _ _ _ _ _ I HR' K). assert (r = 1) as -> by lia.
        exists (upd_blk h (c_data o) (kill (with_refs k 0))). split.
        -- unfold decrement_refs, bnd. rewrite (refs_ok _ _ _ _ _ _ _ HR' K).
           replace (sub64 1 1) with 0 by reflexivity. rewrite (set_refs_ok _ _ _ _ _ _ _ _ HR' K).
           unfold assertM. cbn [Z.ltb Z.compare negb]. rewrite andb_false_r. cbn [ret Z.eqb Pos.eqb]. rewrite Z0. cbn [Z.eqb].
           rewrite (heap_cap _ _ _ _ _ HR'). destruct HR' as (B & L & LN & _). unfold free_block. rewrite (blk_upd _ _ _ _ _ B), Z.eqb_refl.
           cbn [with_refs bk_live bk_res bk_kind]. cbn [with_refs bk_len]. rewrite Y, LN, !Z.eqb_refl, orb_true_r. cbn [Z.eqb andb Bool.eqb].
           f_equal. erewrite upd_upd by eassumption. reflexivity.
        -- split; [|split; [apply flags_upd|apply FR]]. pose proof (others_not _ _ _ _ _ _ _ _ _ _ _ I HR' (or_intror K)) as O0.
           eapply Inv_set_blk; [eassumption|apply HR'| |discriminate].
           intros o' l' X Y'. rewrite (owners_0 _ _ O0 _ _ X) in Y'. discriminate.
Qed.
Lemma destroy_dangling h o t : arena = false -> dangling h o -> h_rfail h = true ->
  spec (destroy dbg arena o) h t (fun _ _ _ => False) (fun _ _ _ => False).
Proof.
  intros EA ([C|C] & k & B & L) F; unfold spec, destroy; rewrite C, EA; cbn [is_small is_medium Z.eqb Pos.eqb andb].
  - unfold free_block. rewrite B, L. exact F.
  - unfold decrement_refs, bnd, refs. rewrite B, L. exact F.
Qed.
Lemma set_ml_eq o t : c_al t = c_al o -> set_ml o t = t.
Proof. destruct o, t; cbn. intros ->. reflexivity. Qed.
Lemma swap_destroy_ok h o l t lt R : Inv h ((t, lt) :: (o, l) :: R) ->
  exists h', swap_destroy dbg arena t h o = Ret tt h' t /\ Inv h' ((t, lt) :: R) /\ flags h h' /\ (unique h t -> unique h' t).
Proof.
  intros I. pose proof I as I0. destruct (Inv_head _ _ _ _ I) as (_ & A). apply Inv_swap in I. destruct (Inv_head _ _ _ _ I) as (_ & A').
  unfold swap_destroy, bnd, this, put. rewrite (set_ml_eq o t), (set_ml_eq t o) by congruence.
  destruct (destroy_ok _ _ _ _ t I) as (h' & E & I' & F & B). exists h'. split; [exact E|]. split; [exact I'|]. split; [exact F|].
  intros [U|(k & U1 & U2)]; [left; assumption|]. destruct (heapy t) eqn:Ht; [|left; assumption].
  right. exists k. split; [|assumption]. rewrite B; [assumption|].
  destruct (Inv_head _ _ _ _ I0) as (RP & _). destruct (rep_heapy _ _ _ RP Ht) as (k0 & cap & HR).
  pose proof HR as (B0 & _). rewrite U1 in B0. injection B0 as <-.
  pose proof (others_not _ _ _ _ _ _ _ _ _ _ _ I0 HR U2) as O0. exact (owners_0 _ _ O0 o l (or_introl eq_refl)).
Qed.

(** ** reset, small sizes *)
Lemma set_small_ok h o n : 0 <= n <= max_small -> set_small_size dbg n h o = Ret tt h (set_unit (set_unit o max_small (max_small - n)) n 0).
Proof.
  intros H. unfold set_small_size, bnd. unfold assertM at 1. destruct (Z.leb_spec n max_small); [|lia].
  cbn [negb]. rewrite andb_false_r. cbn [ret]. destruct (Z.ltb_spec n 0), (Z.ltb_spec max_small n); try lia. cbn [orb this put].
  assert (B : unit_at (set_unit (set_unit o max_small (max_small - n)) n 0) max_small = max_small - n).
  { rewrite !byte_set by lia. destruct (Z.eqb_spec n max_small), (Z.eqb_spec max_small max_small); lia. }
  rewrite (cat_small _ _ B H), (size_small _ _ B H). unfold assertM. cbn [is_small Z.eqb andb]. rewrite Z.eqb_refl. cbn [negb].
  rewrite andb_false_r. reflexivity.
Qed.
Lemma small_rep_of o n l : 0 <= n <= max_small -> slen l = n ->
  (forall i, 0 <= i < n -> lget l i = Some (unit_at o i)) -> small_rep (set_unit (set_unit o max_small (max_small - n)) n 0) l.
Proof.
  intros H E G. unfold small_rep. rewrite E. split; [lia|].
  split; [rewrite !byte_set by lia; destruct (Z.eqb_spec n max_small), (Z.eqb_spec max_small max_small); lia|].
  split; [rewrite byte_set by lia; rewrite Z.eqb_refl; reflexivity|].
  intros i Hi. rewrite !byte_set by lia. destruct (Z.eqb_spec n i), (Z.eqb_spec max_small i); try lia. apply G. lia.
Qed.
Lemma small_size_ok h o l : small_rep o l -> small_size dbg h o = Ret (slen l) h o.
Proof.
  intros R. pose proof (small_cat _ (small_heapy _ _ R)) as C. destruct R as (L & B & _). pose proof (slen_nonneg l).
  unfold small_size, bnd, this, assertM. rewrite C, B. cbn [is_small Z.eqb negb]. rewrite andb_false_r. cbn [ret].
  destruct (Z.leb_spec (max_small - slen l) max_small); [|lia]. cbn [negb]. rewrite andb_false_r. cbn [ret].
  replace (sub64 max_small (max_small - slen l)) with (slen l); [reflexivity|].
  unfold sub64. rewrite Z.mod_small by (unfold M64; lia). lia.
Qed.
Lemma init_default_ok h R o : Inv h R -> c_al o = ar ->
  exists t, init_default dbg arena h o = Ret tt h t /\ Inv h ((t, []) :: R) /\ heapy t = false.
Proof.
  intros I A. exists (set_unit (set_unit o max_small (max_small - 0)) 0 0). unfold init_default, bnd at 1. cbn [this].
  rewrite (al_ok _ _ _ I A). unfold reset. rewrite set_small_ok by lia. split; [reflexivity|].
  assert (small_rep (set_unit (set_unit o max_small (max_small - 0)) 0 0) []) as Q.
  { apply small_rep_of; [lia|reflexivity|]. intros. lia. }
  split; [|eapply small_heapy; eassumption].
  apply Inv_new_small; [assumption|assumption| |reflexivity]. rewrite !set_unit_al. assumption.
Qed.
Lemma init_default_spec h R o (Q : unit -> heap -> core -> Prop) E : Inv h R -> c_al o = ar ->
  (forall t, Inv h ((t, []) :: R) -> heapy t = false -> Q tt h t) -> spec (init_default dbg arena) h o Q E.
Proof.
  intros I A H. destruct (init_default_ok _ _ _ I A) as (t & E1 & I1 & H1). eapply spec_ret_eq; [exact E1|]. auto.
Qed.
End S.
End Wide.
