(** Property C75: stdb_vector when constructors of elements throw.

    [trun left v a o] (VecThrowModel): call [o] on vector [v] when [left]
    constructions of elements from arguments succeed and the next one throws. *)
Require Import ZArith List Bool Lia.
From Verif Require Import Base BaseProofs VecSpec VecModel VecStatements VecCases VecProofs VecProofs2 VecProofs3 VecProofs4 VecProofs5
  VecThrowModel VecThrowStatements VecThrowProofs VecThrowProofs2 VecThrowProofs3.
Import ListNotations.
Open Scope Z_scope.

Section Throw.
Variable k : kind.
Variable sz : Z.
Variable dbg : bool.
Hypothesis SZ : size_ok sz.
Hypothesis CK : counted k = true.     (* elements with constructors and destructors *)

Lemma the_vec s ss i v l : vreach k sz dbg s ss -> nth_error (vs s) i = Some (Some v) -> lget ss i = Some l -> vrep k sz v l.
Proof.
  intros H E L. destruct (vreach_inv k sz dbg SZ s ss H) as [R _].
  destruct (srep_get' k sz s ss i v R E) as (l1 & L1 & V). congruence.
Qed.

(** As long as no constructor throws, the calls do what the rest of the
    development says about them. *)
Theorem C75_same_without_exception : forall mal left s ss i v l a o,
  vreach k sz dbg s ss -> nth_error (vs s) i = Some (Some v) -> lget ss i = Some l ->
  needs (len l) o <= Z.of_nat left ->
  trun k sz dbg mal left v a o = as_before (run_uop k sz dbg mal v a o).
Proof. intros. eapply trun_agrees; [exact CK| |eassumption]. eapply the_vec; eassumption. Qed.

Theorem C75_same_constructors : forall mal left s n x l, n <= Z.of_nat left -> len l <= Z.of_nat left ->
  vstep k sz dbg mal s (VNewFill n x) = constructed s (new_fill_t k sz dbg mal left (vacct s) n x) /\
  vstep k sz dbg mal s (VNewN n) = constructed s (new_fill_t k sz dbg mal left (vacct s) n dflt) /\
  vstep k sz dbg mal s (VNewRange l) = constructed s (new_range_t k sz dbg mal left (vacct s) l).
Proof.
  intros mal left s n x l H1 H2. unfold constructed, new_fill_t, new_range_t, vpush. cbn [vstep]. split; [|split].
  - destruct (0 <? n); [|reflexivity]. destruct (allocate _ _ _ _) as [[b|]| |]; try reflexivity. cbn [bind].
    rewrite cref_t_all by lia. destruct (construct_range_with_cref _ _ _ _ _ _ _ _) as [[b1 a1]| |]; reflexivity.
  - destruct (0 <? n); [|reflexivity]. destruct (allocate _ _ _ _) as [[b|]| |]; try reflexivity. cbn [bind].
    rewrite cref_t_all by lia. destruct (construct_range_with_cref _ _ _ _ _ _ _ _) as [[b1 a1]| |]; reflexivity.
  - destruct (0 <? len l); [|reflexivity]. destruct (allocate _ _ _ _) as [[b|]| |]; try reflexivity. cbn [bind].
    unfold len in H2. rewrite from_iter_t_all by (exact CK || lia). destruct (copy_from_iterator _ _ _ _ _ _) as [[b1 a1]| |]; reflexivity.
Qed.

Theorem C75_same_copies : forall mal left s ss i j v w l, vreach k sz dbg s ss -> i <> j ->
  nth_error (vs s) i = Some (Some v) -> nth_error (vs s) j = Some (Some w) -> lget ss j = Some l -> len l <= Z.of_nat left ->
  vstep k sz dbg mal s (VCopy j) = constructed s (copy_new_t k sz dbg mal left (vacct s) w) /\
  vstep k sz dbg mal s (VAssign i j) = assigned s i (assign_t k sz dbg mal left (vacct s) v w).
Proof.
  intros mal left s ss i j v w l H NE E E' L HL. pose proof (the_vec s ss j w l H E' L) as R.
  destruct (vreach_inv k sz dbg SZ s ss H) as [RR _]. destruct (srep_get' k sz s ss i v RR E) as (l1 & _ & R1).
  unfold constructed, assigned, copy_new_t, assign_t, vpush. cbn [vstep]. unfold vget. rewrite E, E'. cbn [bind].
  destruct (Nat.eqb_spec i j) as [|_]; [contradiction|].
  destruct w as [wb wsize wcap|]; [|contradiction]. destruct R as (Hs & _).
  destruct v as [b size cap|]; [|contradiction].
  split.
  - destruct (0 <? wsize); [|reflexivity]. destruct (allocate _ _ _ _) as [[nb|]| |]; try reflexivity. cbn [bind].
    destruct (need wb); cbn [bind]; try reflexivity.
    rewrite copy_range_t_all by (exact CK || lia). destruct (copy_range _ _ _ _ _ _) as [[b1 a1]| |]; reflexivity.
  - destruct (cap <? wsize).
    + destruct (core_destroy _ _ _ _); cbn [bind]; try reflexivity.
      destruct (allocate _ _ _ _) as [[nb|]| |]; try reflexivity. cbn [bind].
      destruct (need wb); cbn [bind]; try reflexivity.
      rewrite copy_range_t_all by (exact CK || lia). destruct (copy_range _ _ _ _ _ _) as [[b1 a1]| |]; reflexivity.
    + destruct (core_clear _ _ _ _ _ _) as [[b1 a1]| |]; cbn [bind]; try reflexivity.
      destruct (0 <? wsize); [|reflexivity].
      destruct (need wb); cbn [bind]; try reflexivity. destruct (need b1); cbn [bind]; try reflexivity.
      rewrite copy_range_t_all by (exact CK || lia). destruct (copy_range _ _ _ _ _ _) as [[b2 a2]| |]; reflexivity.
Qed.

Lemma the_cap v l : vrep k sz v l -> exists b cap, v = Vec b (len l) cap.
Proof. destruct v as [b size cap|]; [|intros []]. intros (-> & _). eauto. Qed.

(** C75: an exception out of an element constructor comes out of the call. *)
Theorem C75_reported : forall mal left s ss i v l a o x, vreach k sz dbg s ss -> malloc_sane mal ->
  nth_error (vs s) i = Some (Some v) -> lget ss i = Some l -> allowed k sz dbg mal v o -> apply o l = Some x ->
  Z.of_nat left < needs (len l) o ->
  exists st a' out, trun k sz dbg mal left v a o = Ok (st, a', out) /\
    (out = TElem \/ out = TNoMem /\ exists n, mal n = false).
Proof.
  intros mal left s ss i v l a o x H MS E L AL AP HL. pose proof (the_vec s ss i v l H E L) as R.
  destruct (the_cap v l R) as (b & cap & ->).
  destruct (trun_stops k sz dbg CK SZ mal MS b (len l) cap l a o left x R AL AP HL) as (st & a' & out & EQ & G).
  exists st, a', out. split; [exact EQ|]. destruct out; [contradiction|right; auto|left; reflexivity].
Qed.

(** C75: after these the vector can be destroyed, its size is what it was, and
    the elements before the position are untouched; how many objects leak is
    known.  Missing: the other calls, refuted below. *)
Theorem C75_destroyable_partial : forall mal left s ss i v l a o x st a' cap, vreach k sz dbg s ss -> malloc_sane mal ->
  nth_error (vs s) i = Some (Some v) -> lget ss i = Some l -> allowed k sz dbg mal v o -> apply o l = Some x ->
  Z.of_nat left < needs (len l) o -> vcapacity v = Ok cap -> survives k (len l) cap (Z.of_nat left) o ->
  trun k sz dbg mal left v a o = Ok (st, a', TElem) ->
  (exists a'', destroy_state k st a' = Ok a'' /\
     (k = KMove \/ k = KCopy -> n_lost a'' = n_lost a + leaked (len l) (Z.of_nat left) o)) /\
  state_size st = Ok (len l) /\ forall j y, 0 <= j < kept o -> at_ l j = Some y -> state_at dbg st j = Ok y.
Proof.
  intros mal left s ss i v l a o x st a' cap H MS E L AL AP HL VC SV TR. pose proof (the_vec s ss i v l H E L) as R.
  destruct (the_cap v l R) as (b & c & ->). cbn in VC. injection VC as ->.
  destruct (trun_stops k sz dbg CK SZ mal MS b (len l) cap l a o left x R AL AP HL) as (st1 & a1 & out & EQ & G).
  rewrite TR in EQ. injection EQ as <- <- <-. destruct G as [G _]. destruct (G SV) as (G1 & G2 & G3).
  split; [exact G1|]. split; [exact G2|]. intros j y Hj AT. apply at_inv in AT. destruct AT as [_ ->]. apply G3; exact Hj.
Qed.

(** C75 is false otherwise: whenever push_back, emplace_back, a growing resize,
    assign, insertion at the end, or (for elements without move constructor) any
    insertion throws, destroying the vector is undefined: it runs destructors
    on memory that never held an object, or over a freed buffer. *)
Theorem C75_undefined_refuted : forall mal left s ss i v l a o x st a' cap, vreach k sz dbg s ss -> malloc_sane mal ->
  nth_error (vs s) i = Some (Some v) -> lget ss i = Some l -> allowed k sz dbg mal v o -> apply o l = Some x ->
  Z.of_nat left < needs (len l) o -> vcapacity v = Ok cap -> ~ survives k (len l) cap (Z.of_nat left) o -> untouched v ->
  trun k sz dbg mal left v a o = Ok (st, a', TElem) -> destroy_state k st a' = Undef.
Proof.
  intros mal left s ss i v l a o x st a' cap H MS E L AL AP HL VC SV U TR. pose proof (the_vec s ss i v l H E L) as R.
  destruct (the_cap v l R) as (b & c & ->). cbn in VC. injection VC as ->.
  destruct (trun_stops k sz dbg CK SZ mal MS b (len l) cap l a o left x R AL AP HL) as (st1 & a1 & out & EQ & G).
  rewrite TR in EQ. injection EQ as <- <- <-. destruct G as [_ G]. exact (G SV U).
Qed.

(** C75 for constructors: with a throwing element both constructors are
    undefined; the copy constructor leaks what it copied. *)
Theorem C75_constructors_refuted : forall mal left a n x l, malloc_sane mal ->
  (0 < n -> n * sz < M64 -> Z.of_nat left < n -> mal (n * sz) = true -> new_fill_t k sz dbg mal left a n x = Undef) /\
  (len l * sz < M64 -> Z.of_nat left < len l -> mal (len l * sz) = true -> new_range_t k sz dbg mal left a l = Undef).
Proof.
  intros mal left a n x l MS. split.
  - intros H1 H2 H3 H4. destruct (new_fill_stops k sz dbg CK SZ mal MS left a n x H1 H2 H3) as [E|[_ E]]; congruence.
  - intros H1 H2 H3. destruct (new_range_stops k sz dbg CK SZ mal MS left a l H1 H2) as [E|[_ E]]; congruence.
Qed.
Theorem C75_copy_constructor_partial : forall mal left s ss i w l a, vreach k sz dbg s ss -> malloc_sane mal ->
  nth_error (vs s) i = Some (Some w) -> lget ss i = Some l -> Z.of_nat left < len l ->
  (copy_new_t k sz dbg mal left a w = Ok (None, a, TNoMem) /\ mal (len l * sz) = false) \/
  exists a', copy_new_t k sz dbg mal left a w = Ok (None, a', TElem) /\
    (k = KMove \/ k = KCopy -> n_lost a' = n_lost a + Z.of_nat left).
Proof.
  intros mal left s ss i w l a H MS E L HL. apply copy_new_stops; auto. eapply the_vec; eassumption.
Qed.

(** C75 for copy assignment: destroyable exactly if the buffer was large enough
    and as many elements were copied as there were before; then the rest of the
    copied ones leaks. *)
Theorem C75_assignment_partial : forall mal left s ss i j v w l lw a cap st a', vreach k sz dbg s ss -> malloc_sane mal ->
  nth_error (vs s) i = Some (Some v) -> lget ss i = Some l -> nth_error (vs s) j = Some (Some w) -> lget ss j = Some lw ->
  Z.of_nat left < len lw -> vcapacity v = Ok cap -> untouched v ->
  assign_t k sz dbg mal left a v w = Ok (st, a', TElem) ->
  if (len lw <=? cap) && (len l <=? Z.of_nat left)
  then exists a'', destroy_state k st a' = Ok a'' /\ (k = KMove \/ k = KCopy -> n_lost a'' = n_lost a + (Z.of_nat left - len l))
  else destroy_state k st a' = Undef.
Proof.
  intros mal left s ss i j v w l lw a cap st a' H MS E L E' L' HL VC U AS.
  pose proof (the_vec s ss i v l H E L) as R. pose proof (the_vec s ss j w lw H E' L') as R'.
  destruct (the_cap v l R) as (b & c & ->).
  destruct (assign_stops k sz dbg CK SZ mal MS left a _ l w lw (len l) cap R R' HL eq_refl VC) as (st1 & a1 & out & EQ & G).
  rewrite AS in EQ. injection EQ as <- <- <-. destruct G as [G1 G2]. cbn [survives leaked] in G1, G2.
  destruct (Z.leb_spec (len lw) cap), (Z.leb_spec (len l) (Z.of_nat left)); cbn [andb];
    first [apply G1; lia | apply G2; [lia|exact U]].
Qed.
End Throw.

(** Vector 0 is [7; 8; 9] with room for four elements, vector 1 is full. *)
Definition prog : list vop := [VNew; VOn 0%nat (UReserve 4); VOn 0%nat (UPush true (Val 7)); VOn 0%nat (UPush true (Val 8));
  VOn 0%nat (UPush true (Val 9)); VNewRange [1; 2; 3; 4]].
Definition shape (v : vec) : option (Z * Z) := match v with Vec _ s c => Some (s, c) | Broken => None end.
Definition throwing (k : kind) (left : nat) (o : uop) (i : nat) (s : vsys) : option (option (Z * Z) * tout * option Z) :=
  match nth_error (vs s) i with
  | Some (Some v) =>
      match trun k 16 true plenty left v (vacct s) o with
      | Ok (st, a, out) =>
          Some (match st with Whole v1 => shape v1 | Torn => None end, out,
                match destroy_state k st a with Ok a1 => Some (n_lost a1 - n_lost (vacct s)) | _ => None end)
      | _ => None
      end
  | _ => None
  end.
Definition untouched_at (i : nat) (s : vsys) : Prop := match nth_error (vs s) i with Some (Some v) => untouched v | _ => False end.
Definition allowed_at (k : kind) (o : uop) (i : nat) (s : vsys) : Prop :=
  match nth_error (vs s) i with Some (Some v) => allowed k 16 true plenty v o | _ => False end.

Example C75_push_example : after KMove 16 true plenty prog (fun s ss =>
  ss = [Some [7; 8; 9]; Some [1; 2; 3; 4]] /\ untouched_at 0 s /\ allowed_at KMove (UPush true (Val 5)) 0 s /\
  throwing KMove 1 (UPush true (Val 5)) 0 s = Some (Some (4, 4), TDone 0, Some 0) /\
  throwing KMove 0 (UPush true (Val 5)) 0 s = Some (Some (4, 4), TElem, None) /\
  throwing KMove 0 (UPush true (Val 5)) 1 s = Some (Some (5, 6), TElem, None)).
Proof.
  split; [allowed_tac|]. vm_compute. repeat split; try (left; reflexivity).
  intros [|p|p] [H1 H2]; try (exfalso; apply H1; reflexivity).
  do 3 (try destruct p as [p|p|]); first [discriminate H2 | reflexivity | exfalso; apply H1; reflexivity].
Qed.
Example C75_insert_example : after KMove 16 true plenty prog (fun s ss =>
  allowed_at KMove (UInsert true 1 (Val 5)) 0 s /\ survives KMove 3 4 0 (UInsert true 1 (Val 5)) /\
  throwing KMove 0 (UInsert true 1 (Val 5)) 0 s = Some (Some (3, 4), TElem, Some 1) /\
  throwing KMove 0 (UInsert true 3 (Val 5)) 0 s = Some (Some (4, 4), TElem, None) /\
  throwing KMove 2 (UInsertRange true 1 [5; 6; 7; 8]) 0 s = Some (Some (3, 7), TElem, Some 2) /\
  throwing KMove 3 (UInsertRange true 1 [5; 6; 7; 8]) 0 s = Some (Some (3, 7), TElem, Some 3) /\
  throwing KMove 4 (UInsertRange true 1 [5; 6; 7; 8]) 0 s = Some (Some (7, 7), TDone 1, Some 0)).
Proof. split; [allowed_tac|]. vm_compute. repeat split; try (left; reflexivity); discriminate. Qed.
Example C75_insert_copied_example : after KCopy 16 true plenty prog (fun s ss =>
  throwing KCopy 0 (UInsert true 1 (Val 5)) 0 s = Some (Some (3, 4), TElem, None) /\
  throwing KCopy 1 (UInsertRange true 1 [5; 6; 7; 8]) 0 s = Some (Some (3, 7), TElem, None) /\
  throwing KCopy 2 (UInsertRange true 1 [5; 6; 7; 8]) 0 s = Some (Some (3, 7), TElem, Some 2)).
Proof. split; [allowed_tac|]. vm_compute. repeat split. Qed.
Example C75_assign_example : after KMove 16 true plenty prog (fun s ss =>
  throwing KMove 2 (UAssignRange [5; 6; 7; 8]) 0 s = Some (Some (3, 4), TElem, None) /\
  throwing KMove 3 (UAssignRange [5; 6; 7; 8]) 0 s = Some (Some (3, 4), TElem, Some 0) /\
  throwing KMove 3 (UAssignRange [5; 6; 7; 8; 9]) 0 s = Some (None, TElem, None) /\
  throwing KMove 3 (UAssignN 4 (Val 5)) 0 s = Some (Some (4, 4), TElem, None) /\
  throwing KMove 0 (UResize 4) 0 s = Some (Some (4, 4), TElem, None)).
Proof. split; [allowed_tac|]. vm_compute. repeat split. Qed.
(** Copying vector 1 when the third copy throws: two objects leak. *)
Example C75_copies_example : after KMove 16 true plenty prog (fun s ss =>
  match nth_error (vs s) 0, nth_error (vs s) 1 with
  | Some (Some v), Some (Some w) =>
      match copy_new_t KMove 16 true plenty 2 (vacct s) w with
      | Ok (None, a, TElem) => n_lost a = n_lost (vacct s) + 2 | _ => False end /\
      match assign_t KMove 16 true plenty 2 (vacct s) v w with
      | Ok (st, a, TElem) => destroy_state KMove st a = Undef | _ => False end /\
      match assign_t KMove 16 true plenty 3 (vacct s) v w with
      | Ok (st, a, TElem) => exists a', destroy_state KMove st a = Ok a' | _ => False end
  | _, _ => False
  end).
Proof. split; [allowed_tac|]. vm_compute. repeat split. eexists; reflexivity. Qed.
Example C75_constructors_example :
  new_fill_t KMove 16 true plenty 2 no_acct 3 5 = Undef /\ new_range_t KMove 16 true plenty 0 no_acct [5; 6] = Undef.
Proof. split; vm_compute; reflexivity. Qed.

Print Assumptions C75_same_without_exception.
Print Assumptions C75_same_constructors.
Print Assumptions C75_same_copies.
Print Assumptions C75_reported.
Print Assumptions C75_destroyable_partial.
Print Assumptions C75_undefined_refuted.
Print Assumptions C75_constructors_refuted.
Print Assumptions C75_copy_constructor_partial.
Print Assumptions C75_assignment_partial.
