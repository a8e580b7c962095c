(** The invariant of a set of strings and a heap. *)
Require Import ZArith List Bool Lia Permutation.
From Verif Require Import Base BaseProofs StrSpec StrModel StrProofs.
Import ListNotations.
Open Scope Z_scope.

Notation pairs := (list (core * list (option Z))).
Ltac ar_cases ar := let e := fresh "ae" in let EAR := fresh "EAR" in
  remember (ar =? 0) as e eqn:EAR in *; symmetry in EAR; destruct e; [apply Z.eqb_eq in EAR|apply Z.eqb_neq in EAR].

Section Wide.
Context {ChT : CharType}.



Definition heapy (o : core) : bool := negb (category o =? is_small).
Definition owns (b : Z) (o : core) : bool := heapy o && (c_data o =? b).
Definition owners (b : Z) (S : pairs) : Z := slen (filter (fun p => owns b (fst p)) S).

Definition small_rep (o : core) (l : list (option Z)) : Prop :=
  slen l <= max_small /\ unit_at o max_small = max_small - slen l /\ unit_at o (slen l) = 0 /\
  forall i, 0 <= i < slen l -> lget l i = Some (unit_at o i).
Definition heap_rep (h : heap) (o : core) (l : list (option Z)) (k : block) (cap : Z) : Prop :=
  blk h (c_data o) = Some k /\ bk_live k = true /\ bk_len k = cap + 1 /\ c_size o = slen l /\ slen l <= cap /\
  bk_at k (slen l) = Some 0 /\ (forall i, 0 <= i < slen l -> lget l i = bk_at k i) /\
  match bk_kind k with Plain => has_cap o cap 128 | Counted _ => has_cap o cap 64 end.
Definition rep (h : heap) (o : core) (l : list (option Z)) : Prop :=
  small_rep o l \/ exists k cap, heap_rep h o l k cap.


Section Inv.
Variables (dbg arena : bool) (mal : nat -> Z -> bool) (ar N : Z).
(** Short strings are not stored in the object, so an object is small only when empty. *)
Notation off := (sso_off dbg arena).

Definition blk_ok (c : Z) (k : block) : Prop :=
  bk_res k = ar /\
  match bk_kind k with
  | Plain => if ar =? 0 then c = 1 else c <= 1
  | Counted r => 0 <= r <= N /\ if ar =? 0 then c = r /\ 1 <= r else c <= r
  end.

Record Inv (h : heap) (S : pairs) : Prop := {
  i_sane : forall k n, mal k n = true -> n <= 2 ^ 62;
  i_ar : if arena then dbg = true -> ar <> 0 else ar = 0;
  i_N : 1 <= N < 2 ^ 63;
  i_rep : forall o l, In (o, l) S -> rep h o l /\ c_al o = ar;
  i_off : off = true -> forall o l, In (o, l) S -> heapy o = false -> l = [];
  i_blk : forall b k, blk h b = Some k -> bk_live k = true -> blk_ok (owners b S) k;
  i_same : forall o l o' l', In (o, l) S -> In (o', l') S -> heapy o = true -> heapy o' = true ->
           c_data o = c_data o' -> c_size o = c_size o' }.

(** ** Blocks *)

Definition nb (h : heap) : Z := Z.of_nat (length (h_blocks h)).
Definition push (h : heap) (k : block) : heap :=
  {| h_blocks := h_blocks h ++ [k]; h_calls := S (h_calls h); h_refused := h_refused h; h_rfail := h_rfail h |}.

Lemma nb_nonneg h : 0 <= nb h. Proof. unfold nb. lia. Qed.
Lemma blk_range h b k : blk h b = Some k -> 0 <= b < nb h.
Proof.
  unfold blk, nb. destruct (Z.ltb_spec b 0); [discriminate|]. intros E.
  assert (nth_error (h_blocks h) (Z.to_nat b) <> None) as X by congruence.
  apply nth_error_Some in X. lia.
Qed.
Lemma blk_push_old h k b k0 : blk h b = Some k0 -> blk (push h k) b = Some k0.
Proof.
  intros E. pose proof (blk_range _ _ _ E) as R. unfold blk, nb in *. destruct (b <? 0); [discriminate|].
  cbn [push h_blocks]. rewrite nth_error_app1 by lia. exact E.
Qed.
Lemma blk_push_new h k : blk (push h k) (nb h) = Some k.
Proof.
  unfold blk, nb. destruct (Z.ltb_spec (Z.of_nat (length (h_blocks h))) 0); [lia|].
  cbn [push h_blocks]. rewrite nth_error_app2 by lia. rewrite Nat2Z.id, Nat.sub_diag. reflexivity.
Qed.
Lemma blk_push_inv h k b k0 : blk (push h k) b = Some k0 -> blk h b = Some k0 \/ b = nb h /\ k0 = k.
Proof.
  intros E. pose proof (blk_range _ _ _ E) as R.
  assert (nb (push h k) = nb h + 1) as Q by (unfold nb; cbn [push h_blocks]; rewrite app_length; cbn; lia).
  destruct (Z.eq_dec b (nb h)) as [->|].
  - right. rewrite blk_push_new in E. split; congruence.
  - left. unfold blk, nb in *. destruct (b <? 0); [discriminate|]. cbn [push h_blocks] in E.
    rewrite nth_error_app1 in E by lia. exact E.
Qed.
Lemma blk_fresh h : blk h (nb h) = None.
Proof.
  destruct (blk h (nb h)) eqn:E; [|reflexivity]. pose proof (blk_range _ _ _ E). lia.
Qed.
Lemma nth_sset {A} (x : A) l : forall i j, (i < length l)%nat ->
  nth_error (sset i x l) j = if Nat.eqb i j then Some x else nth_error l j.
Proof.
  induction l as [|y l IH]; intros [|i] [|j] H; cbn [length sset nth_error Nat.eqb] in *; try lia; try reflexivity.
  apply IH. lia.
Qed.
Lemma blk_upd h b k0 k b' : blk h b = Some k0 -> blk (upd_blk h b k) b' = if b =? b' then Some k else blk h b'.
Proof.
  intros E. pose proof (blk_range _ _ _ E) as R. unfold nb in R. unfold blk. cbn [upd_blk h_blocks].
  destruct (Z.ltb_spec b' 0).
  - destruct (Z.eqb_spec b b'); [lia|reflexivity].
  - rewrite nth_sset by lia. destruct (Z.eqb_spec b b'), (Nat.eqb_spec (Z.to_nat b) (Z.to_nat b')); try lia; reflexivity.
Qed.
Lemma sset_last {A} (x y : A) l : sset (length l) x (l ++ [y]) = l ++ [x].
Proof. induction l; cbn; [reflexivity|congruence]. Qed.
Lemma upd_push h k k' : upd_blk (push h k) (nb h) k' = push h k'.
Proof. unfold upd_blk, push, nb. cbn. rewrite Nat2Z.id, sset_last. reflexivity. Qed.

(** ** Representation *)

Lemma small_heapy o l : small_rep o l -> heapy o = false.
Proof.
  intros (L & B & _). unfold heapy. rewrite (cat_small o (slen l)); [reflexivity|assumption|].
  pose proof (slen_nonneg l). lia.
Qed.
Lemma heap_heapy h o l k cap : heap_rep h o l k cap -> heapy o = true.
Proof.
  intros (_ & _ & _ & _ & _ & _ & _ & C). unfold heapy. destruct (bk_kind k).
  - rewrite (cat_medium o cap C). reflexivity.
  - rewrite (cat_large o cap C). reflexivity.
Qed.
Lemma rep_size h o l : rep h o l -> size o = slen l.
Proof.
  intros [(L & B & _)|(k & cap & (_ & _ & _ & S & _ & _ & _ & C))].
  - apply size_small; [assumption|]. pose proof (slen_nonneg l). lia.
  - destruct (bk_kind k).
    + rewrite (size_heap o cap 128 C); auto.
    + rewrite (size_heap o cap 64 C); auto.
Qed.
Lemma rep_heapy h o l : rep h o l -> heapy o = true -> exists k cap, heap_rep h o l k cap.
Proof. intros [S|H] E; [rewrite (small_heapy _ _ S) in E; discriminate|assumption]. Qed.
Lemma rep_small h o l : rep h o l -> heapy o = false -> small_rep o l.
Proof. intros [S|(k & cap & H)] E; [assumption|rewrite (heap_heapy _ _ _ _ _ H) in E; discriminate]. Qed.
Lemma rep_ext h h' o l : (heapy o = true -> blk h' (c_data o) = blk h (c_data o)) -> rep h o l -> rep h' o l.
Proof.
  intros E [S|(k & cap & H)]; [left; assumption|]. right. exists k, cap.
  specialize (E (heap_heapy _ _ _ _ _ H)). destruct H as (B & H). split; [congruence|assumption].
Qed.

(** ** Owners *)

Lemma owners_cons b o l S : owners b ((o, l) :: S) = (if owns b o then 1 else 0) + owners b S.
Proof. unfold owners. cbn [filter fst]. destruct (owns b o); [rewrite slen_cons|]; lia. Qed.
Lemma owners_nonneg b S : 0 <= owners b S. Proof. apply slen_nonneg. Qed.
Lemma owners_perm b S S' : Permutation S S' -> owners b S = owners b S'.
Proof.
  intros P. unfold owners, slen. f_equal. apply Permutation_length.
  induction P; cbn [filter].
  - constructor.
  - destruct (owns b (fst x)); [constructor|]; assumption.
  - destruct (owns b (fst x)), (owns b (fst y)); try constructor; try apply Permutation_refl.
  - eapply Permutation_trans; eassumption.
Qed.
Lemma owners_0 b S : owners b S = 0 -> forall o l, In (o, l) S -> owns b o = false.
Proof.
  intros E o l I. destruct (owns b o) eqn:O; [|reflexivity].
  unfold owners in E. apply slen_0 in E.
  assert (In (o, l) (filter (fun p => owns b (fst p)) S)) as X by (apply filter_In; auto).
  rewrite E in X. destruct X.
Qed.
Lemma owners_pos b S : 0 < owners b S -> exists o l, In (o, l) S /\ owns b o = true.
Proof.
  unfold owners. destruct (filter _ S) as [|(o, l) r] eqn:E; [intros X; cbn in X; lia|]. intros _.
  assert (In (o, l) (filter (fun p => owns b (fst p)) S)) as X by (rewrite E; left; reflexivity).
  apply filter_In in X. exists o, l. exact X.
Qed.
Lemma owners_in b S o l : In (o, l) S -> owns b o = true -> 1 <= owners b S.
Proof.
  intros I O. pose proof (owners_nonneg b S). destruct (Z.eq_dec (owners b S) 0) as [E|]; [|lia].
  rewrite (owners_0 b S E o l I) in O. discriminate.
Qed.
Lemma owns_self o : heapy o = true -> owns (c_data o) o = true.
Proof. intros H. unfold owns. rewrite H, Z.eqb_refl. reflexivity. Qed.
Lemma owns_small b o : heapy o = false -> owns b o = false.
Proof. intros H. unfold owns. rewrite H. reflexivity. Qed.
Lemma owns_eq b o : owns b o = true -> heapy o = true /\ c_data o = b.
Proof. unfold owns. intros H. apply andb_prop in H. destruct H as (A & B). apply Z.eqb_eq in B. auto. Qed.
Lemma owns_neq b o : c_data o <> b -> owns b o = false.
Proof. intros. unfold owns. destruct (Z.eqb_spec (c_data o) b); [contradiction|apply andb_false_r]. Qed.

(** ** The invariant *)

Ltac offtac I :=
  let EO := fresh "EO" in intros EO ?o1 ?l1 ?X ?Hs;
  match goal with X : In (?o1, ?l1) _, Hs : heapy ?o1 = false |- _ =>
  first [ exact (i_off _ _ I EO _ _ X Hs)
        | exact (i_off _ _ I EO _ _ (or_intror X) Hs)
        | solve [apply (i_off _ _ I EO o1 l1); [eapply Permutation_in; eassumption|assumption]]
        | destruct X as [X|X];
          [ first [ injection X as <- <-; congruence | injection X as <- <-; auto; fail | exact (i_off _ _ I EO _ _ (or_introl X) Hs) | injection X as <- <-; solve [auto] ]
          | first [ exact (i_off _ _ I EO _ _ (or_intror X) Hs) | exact (i_off _ _ I EO _ _ X Hs) ] ] ]
  end.

Lemma Inv_perm h S S' : Permutation S S' -> Inv h S -> Inv h S'.
Proof.
  intros P I. pose proof (Permutation_sym P) as P'. constructor.
  - apply (i_sane _ _ I).
  - apply (i_ar _ _ I).
  - apply (i_N _ _ I).
  - intros o l X. apply (i_rep _ _ I). eapply Permutation_in; eassumption.
  - offtac I.
  - intros b k X Y. rewrite <- (owners_perm b _ _ P). apply (i_blk _ _ I); assumption.
  - intros o l o' l' X Y. eapply (i_same _ _ I); eapply Permutation_in; eassumption.
Qed.
Lemma Inv_swap h a b S : Inv h (a :: b :: S) -> Inv h (b :: a :: S).
Proof. apply Inv_perm. constructor. Qed.

Lemma Inv_blocks h h' S : h_blocks h' = h_blocks h -> Inv h S -> Inv h' S.
Proof.
  intros E I.
  assert (B : forall b, blk h' b = blk h b) by (intros; unfold blk; rewrite E; reflexivity).
  constructor.
  - apply (i_sane _ _ I).
  - apply (i_ar _ _ I).
  - apply (i_N _ _ I).
  - intros o l X. destruct (i_rep _ _ I o l X) as (R & A). split; [|assumption].
    eapply rep_ext; [|eassumption]. auto.
  - offtac I.
  - intros b k. rewrite B. apply (i_blk _ _ I).
  - apply (i_same _ _ I).
Qed.

(** A new block with its owner. *)
Lemma Inv_push h S o l k cap :
  Inv h S -> heap_rep (push h k) o l k cap -> c_data o = nb h -> c_al o = ar -> bk_res k = ar ->
  (bk_kind k = Plain \/ bk_kind k = Counted 1) -> Inv (push h k) ((o, l) :: S).
Proof.
  intros I R D A E K. pose proof (i_N _ _ I) as HN.
  assert (HO : forall o' l', In (o', l') S -> heapy o' = true -> c_data o' <> nb h).
  { intros o' l' X Y Z0. destruct (i_rep _ _ I o' l' X) as (R' & _). destruct (rep_heapy _ _ _ R' Y) as (k' & cap' & (B & _)).
    pose proof (blk_range _ _ _ B). lia. }
  assert (O0 : owners (nb h) S = 0).
  { destruct (Z.eq_dec (owners (nb h) S) 0); [assumption|]. pose proof (owners_nonneg (nb h) S).
    destruct (owners_pos (nb h) S) as (o' & l' & X & Y); [lia|]. apply owns_eq in Y. destruct Y. exfalso. eapply HO; eassumption. }
  pose proof (heap_heapy _ _ _ _ _ R) as Hh.
  constructor.
  - apply (i_sane _ _ I).
  - apply (i_ar _ _ I).
  - assumption.
  - intros o' l' [X|X].
    + injection X as <- <-. split; [right; eauto|assumption].
    + destruct (i_rep _ _ I o' l' X) as (R' & A'). split; [|assumption].
      eapply rep_ext; [|eassumption]. intros Y. destruct (rep_heapy _ _ _ R' Y) as (k' & cap' & (B & _)).
      rewrite B. apply blk_push_old. assumption.
  - offtac I.
  - intros b k' B L. rewrite owners_cons. apply blk_push_inv in B. destruct B as [B|(-> & ->)].
    + pose proof (blk_range _ _ _ B). rewrite owns_neq by lia. apply (i_blk _ _ I); assumption.
    + rewrite O0. rewrite <- D at 1. rewrite owns_self by assumption. split; [assumption|].
      destruct K as [->| ->]; [ar_cases ar; lia|]. split; [lia|]. ar_cases ar; lia.
  - intros o1 l1 o2 l2 [X|X] [Y|Y] H1 H2 H3.
    + congruence.
    + injection X as <- <-. exfalso. apply (HO o2 l2 Y H2). congruence.
    + injection Y as <- <-. exfalso. apply (HO o1 l1 X H1). congruence.
    + apply (i_same _ _ I o1 l1 o2 l2); assumption.
Qed.

Lemma Inv_drop_small h S o l : Inv h ((o, l) :: S) -> heapy o = false -> Inv h S.
Proof.
  intros I H. constructor.
  - apply (i_sane _ _ I).
  - apply (i_ar _ _ I).
  - apply (i_N _ _ I).
  - intros o' l' X. apply (i_rep _ _ I). right. assumption.
  - offtac I.
  - intros b k B L. pose proof (i_blk _ _ I b k B L) as X. rewrite owners_cons, owns_small in X by assumption. exact X.
  - intros o1 l1 o2 l2 X Y. apply (i_same _ _ I o1 l1 o2 l2); right; assumption.
Qed.
Lemma Inv_weaken h S o l : ar <> 0 -> Inv h ((o, l) :: S) -> Inv h S.
Proof.
  intros EA I. constructor.
  - apply (i_sane _ _ I).
  - apply (i_ar _ _ I).
  - apply (i_N _ _ I).
  - intros o' l' X. apply (i_rep _ _ I). right. assumption.
  - offtac I.
  - intros b k B L. pose proof (i_blk _ _ I b k B L) as X. rewrite owners_cons in X.
    unfold blk_ok in *. apply Z.eqb_neq in EA; rewrite EA in *. destruct X as (X & Y). split; [assumption|].
    destruct (bk_kind k), (owns b o); try split; lia.
  - intros o1 l1 o2 l2 X Y. apply (i_same _ _ I o1 l1 o2 l2); right; assumption.
Qed.

(** What the owner count says about the blocks of the others. *)
Lemma others_not h S o l k cap : Inv h ((o, l) :: S) -> heap_rep h o l k cap ->
  (bk_kind k = Plain \/ bk_kind k = Counted 1) -> owners (c_data o) S = 0.
Proof.
  intros I R K. pose proof (heap_heapy _ _ _ _ _ R) as H. destruct R as (B & L & _).
  pose proof (i_blk _ _ I _ _ B L) as (_ & X). rewrite owners_cons, owns_self in X by assumption.
  pose proof (owners_nonneg (c_data o) S).
  destruct K as [K|K]; rewrite K in X; ar_cases ar; lia.
Qed.

Lemma Inv_set_blk h S o l k k' :
  Inv h ((o, l) :: S) -> blk h (c_data o) = Some k ->
  (forall o' l', In (o', l') S -> owns (c_data o) o' = true -> rep (upd_blk h (c_data o) k') o' l') ->
  (bk_live k' = true -> blk_ok (owners (c_data o) S) k') ->
  Inv (upd_blk h (c_data o) k') S.
Proof.
  intros I B R K.
  assert (BU : forall b, blk (upd_blk h (c_data o) k') b = if c_data o =? b then Some k' else blk h b)
    by (intros; eapply blk_upd; eassumption).
  constructor.
  - apply (i_sane _ _ I).
  - apply (i_ar _ _ I).
  - apply (i_N _ _ I).
  - intros o' l' X. destruct (i_rep _ _ I o' l') as (R' & A'); [right; assumption|]. split; [|assumption].
    destruct (owns (c_data o) o') eqn:O; [eapply R; eassumption|].
    eapply rep_ext; [|eassumption]. intros Y. rewrite BU. destruct (Z.eqb_spec (c_data o) (c_data o')) as [E|]; [|reflexivity].
    unfold owns in O. rewrite Y, E, Z.eqb_refl in O. discriminate.
  - offtac I.
  - intros b k0. rewrite BU. destruct (Z.eqb_spec (c_data o) b) as [<-|].
    + intros X. injection X as <-. assumption.
    + intros X Y. pose proof (i_blk _ _ I _ _ X Y) as Z0. rewrite owners_cons, owns_neq in Z0 by assumption. exact Z0.
  - intros o1 l1 o2 l2 X Y. apply (i_same _ _ I o1 l1 o2 l2); right; assumption.
Qed.

(** Giving up a block for good. *)
Lemma Inv_free h S o l k cap : Inv h ((o, l) :: S) -> heap_rep h o l k cap ->
  (bk_kind k = Plain \/ bk_kind k = Counted 1) -> Inv (upd_blk h (c_data o) (kill k)) S.
Proof.
  intros I R K. pose proof (others_not _ _ _ _ _ _ I R K) as O0. destruct R as (B & L & _).
  eapply Inv_set_blk; [eassumption|exact B| |discriminate].
  intros o' l' X Y. rewrite (owners_0 _ _ O0 _ _ X) in Y. discriminate.
Qed.
(** Giving up one reference. *)
Definition with_refs (k : block) (r : Z) : block :=
  {| bk_kind := Counted r; bk_res := bk_res k; bk_len := bk_len k; bk_at := bk_at k; bk_live := true |}.
Lemma rep_with_refs h b k r r' o l : blk h b = Some k -> bk_live k = true -> bk_kind k = Counted r ->
  rep h o l -> rep (upd_blk h b (with_refs k r')) o l.
Proof.
  intros B L K [S|(k1 & cap & R)]; [left; assumption|]. destruct R as (B1 & R).
  destruct (Z.eq_dec b (c_data o)) as [E|].
  - subst b. rewrite B in B1. injection B1 as <-. right. exists (with_refs k r'), cap.
    split; [rewrite (blk_upd _ _ _ _ _ B), Z.eqb_refl; reflexivity|].
    cbn [with_refs bk_kind bk_res bk_len bk_at bk_live]. rewrite K in R.
    destruct R as (_ & R). split; [reflexivity|exact R].
  - right. exists k1, cap. split; [|assumption]. rewrite (blk_upd _ _ _ _ _ B).
    destruct (Z.eqb_spec b (c_data o)); [contradiction|assumption].
Qed.
Lemma Inv_decr h S o l k cap r : Inv h ((o, l) :: S) -> heap_rep h o l k cap -> bk_kind k = Counted r ->
  (ar = 0 -> 1 < r) -> Inv (upd_blk h (c_data o) (with_refs k (r - 1))) S.
Proof.
  intros I R K H1. pose proof (heap_heapy _ _ _ _ _ R) as H. destruct R as (B & L & R).
  pose proof (i_blk _ _ I _ _ B L) as (X & Y). rewrite K in Y. rewrite owners_cons, owns_self in Y by assumption.
  pose proof (owners_nonneg (c_data o) S).
  eapply Inv_set_blk; [eassumption|exact B| |].
  - intros o' l' Z0 _. destruct (i_rep _ _ I o' l') as (R' & _); [right; assumption|]. eapply rep_with_refs; eassumption.
  - intros _. unfold blk_ok. cbn [with_refs bk_kind bk_res]. split; [assumption|].
    ar_cases ar; [specialize (H1 EAR)|]; split; lia.
Qed.
(** A second owner. *)
Lemma Inv_share h S o l k cap r o' :
  Inv h ((o, l) :: S) -> heap_rep h o l k cap -> bk_kind k = Counted r -> r + 1 <= N ->
  c_data o' = c_data o -> c_size o' = c_size o -> c_cap o' = c_cap o -> c_al o' = ar ->
  Inv (upd_blk h (c_data o) (with_refs k (r + 1))) ((o', l) :: (o, l) :: S).
Proof.
  intros I R K HN ED ES EC EA. pose proof (heap_heapy _ _ _ _ _ R) as H.
  assert (EC' : category o' = category o) by (unfold category, unit_at; cbn; rewrite EC; reflexivity).
  assert (H' : heapy o' = true) by (unfold heapy; rewrite EC'; exact H).
  pose proof R as R0. destruct R as (B & L & R).
  assert (BU : forall b, blk (upd_blk h (c_data o) (with_refs k (r + 1))) b = if c_data o =? b then Some (with_refs k (r + 1)) else blk h b)
    by (intros; eapply blk_upd; eassumption).
  assert (RO : forall o1 l1, In (o1, l1) ((o, l) :: S) -> rep (upd_blk h (c_data o) (with_refs k (r + 1))) o1 l1).
  { intros o1 l1 X. destruct (i_rep _ _ I o1 l1 X) as (R1 & _). eapply rep_with_refs; eassumption. }
  constructor.
  - apply (i_sane _ _ I).
  - apply (i_ar _ _ I).
  - apply (i_N _ _ I).
  - intros o1 l1 [X|X].
    + injection X as <- <-. split; [|assumption]. right. exists (with_refs k (r + 1)), cap.
      rewrite K in R. destruct R as (R1 & R2 & R3 & R4 & R5 & R6).
      split; [rewrite BU, ED, Z.eqb_refl; reflexivity|].
      cbn [with_refs bk_kind bk_res bk_len bk_at bk_live]. split; [reflexivity|]. split; [assumption|].
      split; [congruence|]. repeat (split; [assumption|]). eapply has_cap_ext; [|exact R6]. congruence.
    + split; [apply RO; assumption|]. apply (i_rep _ _ I o1 l1 X).
  - offtac I.
  - intros b k0. rewrite BU, owners_cons. destruct (Z.eqb_spec (c_data o) b) as [<-|].
    + intros X _. injection X as <-. pose proof (i_blk _ _ I _ _ B L) as (X & Y). rewrite K in Y.
      rewrite <- ED at 1. rewrite owns_self by assumption.
      unfold blk_ok. cbn [with_refs bk_kind bk_res]. split; [assumption|]. ar_cases ar; split; try lia.
    + intros X Y. pose proof (i_blk _ _ I _ _ X Y) as Z0. rewrite owns_neq by congruence. exact Z0.
  - assert (G : forall o1 l1, In (o1, l1) ((o', l) :: (o, l) :: S) -> exists o2 l2, In (o2, l2) ((o, l) :: S) /\ heapy o1 = heapy o2 /\ c_data o1 = c_data o2 /\ c_size o1 = c_size o2).
    { intros o1 l1 [X|X]; [injection X as <- <-; exists o, l; repeat split; try congruence; left; reflexivity|].
      exists o1, l1. auto. }
    intros o1 l1 o2 l2 X Y H1 H2 H3.
    destruct (G _ _ X) as (o3 & l3 & X' & E1 & E2 & E3). destruct (G _ _ Y) as (o4 & l4 & Y' & F1 & F2 & F3).
    rewrite E3, F3. apply (i_same _ _ I o3 l3 o4 l4); congruence.
Qed.

(** Changing the head. *)
Lemma Inv_small h S o l o' l' : Inv h ((o, l) :: S) -> heapy o = false -> small_rep o' l' -> c_al o' = c_al o -> (off = true -> l' = []) ->
  Inv h ((o', l') :: S).
Proof.
  intros I H R A F. pose proof (small_heapy _ _ R) as H'. constructor.
  - apply (i_sane _ _ I).
  - apply (i_ar _ _ I).
  - apply (i_N _ _ I).
  - intros o1 l1 [X|X].
    + injection X as <- <-. split; [left; assumption|]. rewrite A. apply (i_rep _ _ I o l). left. reflexivity.
    + apply (i_rep _ _ I o1 l1). right. assumption.
  - offtac I.
  - intros b k B L. pose proof (i_blk _ _ I _ _ B L) as Z0. rewrite owners_cons, owns_small in * by assumption. exact Z0.
  - intros o1 l1 o2 l2 [X|X] [Y|Y] H1 H2 H3; try (injection X as <- <-; congruence); try (injection Y as <- <-; congruence).
    apply (i_same _ _ I o1 l1 o2 l2); try (right; assumption); assumption.
Qed.
Lemma Inv_new_small h S o l : Inv h S -> small_rep o l -> c_al o = ar -> (off = true -> l = []) -> Inv h ((o, l) :: S).
Proof.
  intros I R A F. pose proof (small_heapy _ _ R) as H'. constructor.
  - apply (i_sane _ _ I).
  - apply (i_ar _ _ I).
  - apply (i_N _ _ I).
  - intros o1 l1 [X|X].
    + injection X as <- <-. split; [left; assumption|assumption].
    + apply (i_rep _ _ I o1 l1). assumption.
  - offtac I.
  - intros b k B L. pose proof (i_blk _ _ I _ _ B L) as Z0. rewrite owners_cons, owns_small by assumption. exact Z0.
  - intros o1 l1 o2 l2 [X|X] [Y|Y] H1 H2 H3; try (injection X as <- <-; congruence); try (injection Y as <- <-; congruence).
    apply (i_same _ _ I o1 l1 o2 l2); assumption.
Qed.
(** The head keeps its block; its characters or size may change. *)
Lemma Inv_upd h S o l k cap k' o' l' :
  Inv h ((o, l) :: S) -> heap_rep h o l k cap ->
  bk_kind k' = bk_kind k -> bk_res k' = bk_res k -> bk_live k' = true ->
  c_data o' = c_data o -> c_al o' = c_al o ->
  heap_rep (upd_blk h (c_data o) k') o' l' k' cap ->
  ((bk_kind k = Plain \/ bk_kind k = Counted 1) \/
   (slen l' = slen l /\ bk_len k' = bk_len k /\ forall i, 0 <= i <= slen l -> bk_at k' i = bk_at k i)) ->
  Inv (upd_blk h (c_data o) k') ((o', l') :: S).
Proof.
  intros I R K1 K2 K3 ED EA R' U.
  pose proof (heap_heapy _ _ _ _ _ R) as H. pose proof (heap_heapy _ _ _ _ _ R') as H'.
  pose proof R as R0. destruct R as (B & L & R).
  assert (BU : forall b, blk (upd_blk h (c_data o) k') b = if c_data o =? b then Some k' else blk h b)
    by (intros; eapply blk_upd; eassumption).
  assert (SZ : forall o1 l1, In (o1, l1) S -> owns (c_data o) o1 = true ->
     (slen l' = slen l /\ bk_len k' = bk_len k /\ forall i, 0 <= i <= slen l -> bk_at k' i = bk_at k i)).
  { intros o1 l1 X Y. destruct U as [U|U]; [|assumption].
    pose proof (others_not _ _ _ _ _ _ I R0 U) as O0. rewrite (owners_0 _ _ O0 _ _ X) in Y. discriminate. }
  constructor.
  - apply (i_sane _ _ I).
  - apply (i_ar _ _ I).
  - apply (i_N _ _ I).
  - intros o1 l1 [X|X].
    + injection X as <- <-. split; [right; eauto|]. rewrite EA. apply (i_rep _ _ I o l). left. reflexivity.
    + destruct (i_rep _ _ I o1 l1) as (R1 & A1); [right; assumption|]. split; [|assumption].
      destruct (owns (c_data o) o1) eqn:O.
      * destruct (SZ _ _ X O) as (Q1 & Q2 & Q3). apply owns_eq in O. destruct O as (O1 & O2).
        assert (S1 : c_size o1 = c_size o) by (apply (i_same _ _ I o1 l1 o l); try assumption; [right; assumption|left; reflexivity]).
        destruct (rep_heapy _ _ _ R1 O1) as (k1 & cap1 & (B1 & L1 & C1 & C2 & C3 & C4 & C5 & C6)).
        rewrite O2, B in B1. injection B1 as <-.
        assert (slen l1 = slen l) by (destruct R as (_ & Q & _); congruence).
        right. exists k', cap1. pose proof (slen_nonneg l).
        split; [rewrite BU, O2, Z.eqb_refl; reflexivity|]. split; [assumption|]. split; [congruence|].
        split; [assumption|]. split; [assumption|]. split; [rewrite Q3; [assumption|lia]|].
        split; [intros i Hi; rewrite Q3 by lia; apply C5; assumption|]. rewrite K1. assumption.
      * eapply rep_ext; [|eassumption]. intros Y. rewrite BU. destruct (Z.eqb_spec (c_data o) (c_data o1)) as [E|]; [|reflexivity].
        unfold owns in O. rewrite Y, E, Z.eqb_refl in O. discriminate.
  - offtac I.
  - intros b k0. rewrite BU, owners_cons. destruct (Z.eqb_spec (c_data o) b) as [<-|].
    + intros X _. injection X as <-. pose proof (i_blk _ _ I _ _ B L) as (X & Y).
      rewrite owners_cons, owns_self in Y by assumption. rewrite <- ED at 1. rewrite owns_self by assumption.
      split; [congruence|]. rewrite K1. exact Y.
    + intros X Y. pose proof (i_blk _ _ I _ _ X Y) as Z0. rewrite owners_cons, owns_neq in Z0 by assumption.
      rewrite owns_neq by congruence. exact Z0.
  - intros o1 l1 o2 l2 [X|X] [Y|Y] H1 H2 H3.
    + congruence.
    + injection X as <- <-. assert (O : owns (c_data o) o2 = true) by (unfold owns; rewrite H2, <- H3, ED, Z.eqb_refl; reflexivity).
      destruct (SZ _ _ Y O) as (Q1 & _).
      assert (c_size o = c_size o2) by (apply (i_same _ _ I o l o2 l2); try assumption; [left; reflexivity|right; assumption|congruence]).
      destruct R as (_ & Q & _), R' as (_ & _ & _ & Q' & _). congruence.
    + injection Y as <- <-. assert (O : owns (c_data o) o1 = true) by (unfold owns; rewrite H1, H3, ED, Z.eqb_refl; reflexivity).
      destruct (SZ _ _ X O) as (Q1 & _).
      assert (c_size o = c_size o1) by (apply (i_same _ _ I o l o1 l1); try assumption; [left; reflexivity|right; assumption|congruence]).
      destruct R as (_ & Q & _), R' as (_ & _ & _ & Q' & _). congruence.
    + apply (i_same _ _ I o1 l1 o2 l2); try (right; assumption); assumption.
Qed.

(** Two owners of a block show the same characters. *)
Lemma same_value h S o l o' l' : Inv h S -> In (o, l) S -> In (o', l') S -> heapy o = true -> heapy o' = true ->
  c_data o = c_data o' -> l = l'.
Proof.
  intros I X Y H H' E. pose proof (i_same _ _ I _ _ _ _ X Y H H' E) as ES.
  destruct (i_rep _ _ I _ _ X) as (R & _), (i_rep _ _ I _ _ Y) as (R' & _).
  destruct (rep_heapy _ _ _ R H) as (k & c & B & _ & _ & Q & _ & _ & G & _).
  destruct (rep_heapy _ _ _ R' H') as (k' & c' & B' & _ & _ & Q' & _ & _ & G' & _).
  rewrite <- E, B in B'. injection B' as <-.
  apply lext; [congruence|]. intros i Hi. rewrite G by assumption. rewrite G'; [reflexivity|]. congruence.
Qed.

(** A string that the code takes for shared is as good as shared. *)
Lemma pin_shared h S o l k cap r : Inv h ((o, l) :: S) -> heap_rep h o l k cap -> bk_kind k = Counted r -> 1 < r ->
  exists o' S', (forall y, In y S -> In y S') /\ In (o', l) S' /\ heapy o' = true /\ c_data o' = c_data o /\ Inv h ((o, l) :: S') /\
  (forall h' x, Inv h' (x :: S') -> Inv h' (x :: S)) /\ (forall h', Inv h' S' -> Inv h' S).
Proof.
  intros I R K Hr. pose proof (heap_heapy _ _ _ _ _ R) as H. pose proof R as R0. destruct R as (B & L & R).
  pose proof (i_blk _ _ I _ _ B L) as (X & Y). rewrite K in Y. rewrite owners_cons, owns_self in Y by assumption.
  destruct (Z_lt_dec 0 (owners (c_data o) S)).
  - destruct (owners_pos (c_data o) S) as (o' & l' & Z0 & O); [lia|]. apply owns_eq in O. destruct O as (O1 & O2).
    assert (l' = l) as ->. { eapply (same_value h ((o, l) :: S) o' l' o l); try eassumption; [right; assumption|left; reflexivity]. }
    exists o', S. split; [auto|]. split; [assumption|]. split; [assumption|]. split; [assumption|]. split; [assumption|]. split; intros; assumption.
  - pose proof (owners_nonneg (c_data o) S).
    assert (EA : ar <> 0) by (intros E0; rewrite E0 in Y; cbn [Z.eqb] in Y; lia).
    exists o, ((o, l) :: S). split; [right; assumption|]. split; [left; reflexivity|]. split; [assumption|]. split; [reflexivity|].
    split; [|split; [intros h' [a b] I'; apply Inv_swap in I'; eapply Inv_weaken; eassumption|intros h' I'; eapply Inv_weaken; eassumption]].
    constructor.
    + apply (i_sane _ _ I).
    + apply (i_ar _ _ I).
    + apply (i_N _ _ I).
    + intros o1 l1 [Q|Q]; apply (i_rep _ _ I o1 l1); [left; assumption|assumption].
    + offtac I.
    + intros b k0 B0 L0. pose proof (i_blk _ _ I _ _ B0 L0) as Z0. rewrite owners_cons.
      destruct (owns b o) eqn:O; [|exact Z0]. apply owns_eq in O. destruct O as (_ & <-).
      rewrite B in B0. injection B0 as <-. unfold blk_ok. rewrite K. apply Z.eqb_neq in EA. rewrite EA in *. split; [assumption|].
      rewrite owners_cons, owns_self by assumption. lia.
    + intros o1 l1 o2 l2 Q1 Q2. apply (i_same _ _ I o1 l1 o2 l2); [destruct Q1|destruct Q2]; auto; left; assumption.
Qed.
End Inv.
End Wide.
