(** C26, C27: what insert, emplace, resize, assign and erase do with a reference to an element of the same vector. *)
Require Import ZArith List Bool Lia.
From Verif Require Import Base BaseProofs VecSpec VecModel VecStatements VecOwnStatements VecProofs VecProofs2 VecProofs3 VecProofs4 VecProofs5 VecOwnProofs VecOwnProofs2 VecCases PropVector.
Import ListNotations.
Open Scope Z_scope.

Section K.
Variable k : kind.
Variable sz : Z.
Variable dbg : bool.
Hypothesis SZ : size_ok sz.

Lemma got s ss i l c : vreach k sz dbg s ss -> lget ss i = Some l -> capacity_of i s = Ok c -> 0 < len l ->
  exists b, nth_error (vs s) i = Some (Some (Vec (Some b) (len l) c)) /\ VecProofs2.vrep k sz (Vec (Some b) (len l) c) l.
Proof.
  intros H L C N. destruct (vreach_inv k sz dbg SZ s ss H) as [R _]. destruct (srep_get k sz s ss i l R L) as (v & E & EG & V).
  unfold capacity_of in C. rewrite EG in C. cbn [bind] in C. destruct v as [b size cap|]; [|contradiction]. injection C as ->.
  pose proof V as (V1 & V2 & _ & V4). destruct b as [b|]; [|lia]. subst size. eauto.
Qed.
Lemma no_throw s i v mal o l x : nth_error (vs s) i = Some (Some v) -> (forall v' a', run_uop k sz dbg mal v (vacct s) o <> Ok (v', a', Threw)) ->
  (exists s' out, vstep k sz dbg mal s (VOn i o) = Ok (s', out) /\
     match out with Done r => r = x /\ exists w, nth_error (vs s') i = Some (Some w) /\ shows dbg w l | Threw => exists n : Z, mal n = false end) ->
  exists s' w, vstep k sz dbg mal s (VOn i o) = Ok (s', Done x) /\ nth_error (vs s') i = Some (Some w) /\ shows dbg w l.
Proof.
  intros E NT (s' & out & S & M). destruct out as [r|].
  - destruct M as (-> & w & M). exists s', w. auto.
  - exfalso. cbn [vstep] in S. unfold vget in S. rewrite E in S. cbn [bind] in S. destruct (run_uop k sz dbg mal v (vacct s) o) as [[[v1 a1] r]| |] eqn:ER; try discriminate.
    cbn [bind] in S. injection S as _ ->. eapply NT; reflexivity.
Qed.
Lemma step_of s i v mal o : nth_error (vs s) i = Some (Some v) -> forall m, run_uop k sz dbg mal v (vacct s) o = m ->
  vstep k sz dbg mal s (VOn i o) = bind m (fun '(v1, a1, r) => Ok ({| vs := vupd i (Some v1) (vs s); vacct := a1 |}, r)).
Proof. intros E m <-. cbn [vstep]. unfold vget. rewrite E. reflexivity. Qed.
Lemma step_lost s i v mal o : nth_error (vs s) i = Some (Some v) -> lost mal (run_uop k sz dbg mal v (vacct s) o) -> threw_or_undef mal (vstep k sz dbg mal s (VOn i o)).
Proof.
  intros E [L|((v' & a' & L) & X)]; rewrite (step_of s i v mal o E _ L); [left; reflexivity|]. right. split; [|exact X]. cbn [bind]. eauto.
Qed.

(** With room for the new elements. *)
Theorem C26_insert_in_place : forall s ss i l c mal o safe pos n j, vreach k sz dbg s ss -> malloc_sane mal ->
  lget ss i = Some l -> capacity_of i s = Ok c -> k <> KReloc -> inserts_own o safe pos n j ->
  0 <= pos <= len l -> 0 <= j < len l -> 0 < n -> len l + n <= c ->
  match seen k pos n j l with
  | Some x => exists s' v, vstep k sz dbg mal s (VOn i o) = Ok (s', Done pos) /\ nth_error (vs s') i = Some (Some v) /\
                shows dbg v (take pos l ++ fill_with n x ++ drop pos l)
  | None => vstep k sz dbg mal s (VOn i o) = Undef
  end.
Proof.
  intros s ss i l c mal o safe pos n j H MS L C KR I P J N R. destruct (got s ss i l c H L C ltac:(lia)) as (b & E & V).
  pose proof (insert_in_place k sz dbg SZ mal b (len l) c l (vacct s) o safe pos n j V KR I P N R J) as Q.
  destruct (seen k pos n j l) as [x|]; [|rewrite (step_of s i _ mal o E _ Q); reflexivity].
  rewrite (step_of s i _ mal o E _ Q), <- (step_of s i _ mal (with_val o x) E _ eq_refl).
  apply (no_throw s i _ mal _ _ _ E); [exact (in_place_done k sz dbg SZ mal b (len l) c l (vacct s) o safe pos n j x V N R I)|].
  assert (F : fits sz (len l + n)). { split; [lia|]. destruct V as (_ & _ & V & _). pose proof (mul_pos_lt sz SZ (len l + n) c R). unfold HALF, M64 in *; lia. }
  assert (PP : (0 <=? pos) && (pos <=? len l) = true) by (apply andb_true_intro; split; apply Z.leb_le; lia).
  destruct I as [->|[-> [->| ->]]]; cbn [with_val].
  - eapply (C26_outside_arguments_partial k sz dbg SZ s ss i l mal _ _ pos H MS L).
    + cbn [allowed_v]. rewrite E. split; [destruct k; cbn; congruence || exact Logic.I|]. split; [exact Logic.I|]. unfold room. destruct safe; [split; [exact F|intros; lia]|exact R].
    + exists x. right. right. exists safe, pos. right. right. exists n. reflexivity.
    + cbn [apply the_value]. rewrite PP. destruct (Z.ltb_spec 0 n); [reflexivity|lia].
  - eapply (C26_outside_arguments_partial k sz dbg SZ s ss i l mal _ _ pos H MS L).
    + cbn [allowed_v]. rewrite E. split; [destruct k; cbn; congruence || exact Logic.I|]. split; [exact Logic.I|]. left. lia.
    + exists x. right. right. exists safe, pos. left. reflexivity.
    + cbn [apply the_value]. rewrite PP. reflexivity.
  - eapply (C26_outside_arguments_partial k sz dbg SZ s ss i l mal _ _ pos H MS L).
    + cbn [allowed_v]. rewrite E. split; [destruct k; cbn; congruence || exact Logic.I|]. split; [exact Logic.I|]. left. lia.
    + exists x. right. right. exists safe, pos. right. left. reflexivity.
    + cbn [apply the_value]. rewrite PP. reflexivity.
Qed.
(** Right for a position behind the element; and, of the types whose moves leave
    the original as it was, for an element that stays in the gap. *)
Theorem C26_seen_right : forall pos n j l, 0 <= j < len l -> j < pos \/ (k = KTriv \/ k = KCopyMove) /\ j < pos + n ->
  seen k pos n j l = at_ l j.
Proof.
  intros pos n j l J H. unfold seen. destruct (Z.ltb_spec j pos); [reflexivity|]. destruct H as [H|[K H]]; [lia|]. destruct (Z.ltb_spec j (pos + n)); [|lia].
  destruct K as [->| ->]; reflexivity.
Qed.
(** Without room. *)
Theorem C26_insert_grows : forall s ss i l c mal o pos n j, vreach k sz dbg s ss -> malloc_sane mal ->
  lget ss i = Some l -> capacity_of i s = Ok c -> k <> KReloc -> inserts_own o true pos n j ->
  0 <= pos <= len l -> 0 <= j < len l -> 0 < n -> c < len l + n -> fits sz (len l + n) ->
  threw_or_undef mal (vstep k sz dbg mal s (VOn i o)).
Proof.
  intros s ss i l c mal o pos n j H MS L C KR I P J N R F. destruct (got s ss i l c H L C ltac:(lia)) as (b & E & V).
  apply (step_lost s i _ mal o E). apply (insert_grows k sz dbg SZ mal MS b (len l) c l (vacct s) o pos n j V KR I P N R F J).
Qed.
(** resize(n, v[j]) *)
Theorem C26_resize_in_place : forall s ss i l c mal n j x, vreach k sz dbg s ss -> malloc_sane mal ->
  lget ss i = Some l -> capacity_of i s = Ok c -> at_ l j = Some x -> 0 <= n <= c ->
  exists s' v, vstep k sz dbg mal s (VOn i (UResizeVal n (Elem j))) = Ok (s', Done 0) /\ nth_error (vs s') i = Some (Some v) /\
    shows dbg v (take n l ++ fill_with (n - len l) x).
Proof.
  intros s ss i l c mal n j x H MS L C A N. destruct (at_inv l j x A) as (J & X). subst x. destruct (got s ss i l c H L C ltac:(lia)) as (b & E & V).
  pose proof (resize_in_place k sz dbg mal b (len l) c l (vacct s) n j V N J) as Q.
  rewrite (step_of s i _ mal _ E _ Q), <- (step_of s i _ mal (UResizeVal n (Val (zn l j))) E _ eq_refl).
  apply (no_throw s i _ mal _ _ _ E); [exact (resize_done k sz dbg mal b (len l) c (vacct s) n _ (proj2 N))|].
  destruct (on_one k sz dbg SZ s ss i l mal (UResizeVal n (Val (zn l j))) (take n l ++ fill_with (n - len l) (zn l j)) 0 H MS L) as (s' & out & Q1 & Q2).
  - cbn [allowed_v]. rewrite E. split; [destruct k; exact Logic.I|]. split; [exact Logic.I|]. split; [|intros; exact Logic.I].
    split; [lia|]. destruct V as (_ & _ & V & _). pose proof (mul_pos_lt sz SZ n c (proj2 N)). unfold HALF, M64 in *; lia.
  - cbn [apply the_value]. destruct (Z.ltb_spec n 0); [lia|reflexivity].
  - exists s', out. split; [exact Q1|]. destruct out; [|exact Q2]. destruct Q2 as (_ & Q2 & Q3). split; [exact Q2|exact Q3].
Qed.
Theorem C26_resize_grows : forall s ss i l c mal n j, vreach k sz dbg s ss -> malloc_sane mal ->
  lget ss i = Some l -> capacity_of i s = Ok c -> 0 <= j < len l -> c < n -> fits sz n ->
  threw_or_undef mal (vstep k sz dbg mal s (VOn i (UResizeVal n (Elem j)))).
Proof.
  intros s ss i l c mal n j H MS L C J N F. destruct (got s ss i l c H L C ltac:(lia)) as (b & E & V).
  apply (step_lost s i _ mal _ E). apply (resize_grows k sz dbg SZ mal MS b (len l) c l (vacct s) n j V N F J).
Qed.
(** assign(n, v[j]): the elements are destroyed first. *)
Theorem C26_assign_in_place : forall s ss i l c mal n j x, vreach k sz dbg s ss -> malloc_sane mal ->
  lget ss i = Some l -> capacity_of i s = Ok c -> at_ l j = Some x -> 0 < n <= c ->
  match k with
  | KTriv => exists s' v, vstep k sz dbg mal s (VOn i (UAssignN n (Elem j))) = Ok (s', Done 0) /\ nth_error (vs s') i = Some (Some v) /\
               shows dbg v (fill_with n x)
  | _ => vstep k sz dbg mal s (VOn i (UAssignN n (Elem j))) = Undef
  end.
Proof.
  intros s ss i l c mal n j x H MS L C A N. destruct (at_inv l j x A) as (J & X). subst x. destruct (got s ss i l c H L C ltac:(lia)) as (b & E & V).
  pose proof (assign_in_place k sz dbg mal b (len l) c l (vacct s) n j V N J) as Q.
  assert (D : k = KTriv \/ k <> KTriv) by (destruct k; auto; right; discriminate). destruct D as [D|D].
  - assert (Q' : run_uop k sz dbg mal (Vec (Some b) (len l) c) (vacct s) (UAssignN n (Elem j)) = run_uop k sz dbg mal (Vec (Some b) (len l) c) (vacct s) (UAssignN n (Val (zn l j)))) by (rewrite Q, D; reflexivity).
    enough (G : exists s' v, vstep k sz dbg mal s (VOn i (UAssignN n (Elem j))) = Ok (s', Done 0) /\ nth_error (vs s') i = Some (Some v) /\ shows dbg v (fill_with n (zn l j))) by (destruct k; congruence || exact G).
    rewrite (step_of s i _ mal _ E _ Q'), <- (step_of s i _ mal (UAssignN n (Val (zn l j))) E _ eq_refl).
    apply (no_throw s i _ mal _ _ _ E); [exact (assign_done k sz dbg mal b (len l) c (vacct s) n _ (proj2 N))|].
    destruct (on_one k sz dbg SZ s ss i l mal (UAssignN n (Val (zn l j))) (fill_with n (zn l j)) 0 H MS L) as (s' & out & Q1 & Q2).
    + cbn [allowed_v]. rewrite E. split; [rewrite D; exact Logic.I|]. split; [exact Logic.I|]. split; [left; lia|].
      split; [lia|]. destruct V as (_ & _ & V & _). pose proof (mul_pos_lt sz SZ n c (proj2 N)). unfold HALF, M64 in *; lia.
    + cbn [apply the_value]. destruct (Z.ltb_spec n 0); [lia|reflexivity].
    + exists s', out. split; [exact Q1|]. destruct out; [|exact Q2]. destruct Q2 as (_ & Q2 & Q3). split; [exact Q2|exact Q3].
  - enough (G : vstep k sz dbg mal s (VOn i (UAssignN n (Elem j))) = Undef) by (destruct k; congruence || exact G).
    rewrite (step_of s i _ mal _ E _ Q). destruct k; congruence || reflexivity.
Qed.
Theorem C26_assign_grows : forall s ss i l c mal n j, vreach k sz dbg s ss -> malloc_sane mal ->
  lget ss i = Some l -> capacity_of i s = Ok c -> 0 <= j < len l -> c < n -> fits sz n ->
  threw_or_undef mal (vstep k sz dbg mal s (VOn i (UAssignN n (Elem j)))).
Proof.
  intros s ss i l c mal n j H MS L C J N F. destruct (got s ss i l c H L C ltac:(lia)) as (b & E & V).
  apply (step_lost s i _ mal _ E). apply (assign_grows k sz dbg SZ mal MS b (len l) c l (vacct s) n j V N F J).
Qed.
(** erase(v[j]) of trivially copyable or relocatable elements: as long as no kept
    element lands on slot [j] it is right; what follows one that does is compared
    with that one. *)
Theorem C27_erase_own : forall s ss i l mal j x, vreach k sz dbg s ss -> lget ss i = Some l -> at_ l j = Some x ->
  k = KTriv \/ k = KReloc ->
  (len (without x l) <= j ->
     exists s' v, vstep k sz dbg mal s (VOn i (UEraseVal (Elem j))) = Ok (s', Done (len l - len (without x l))) /\
       nth_error (vs s') i = Some (Some v) /\ shows dbg v (without x l)) /\
  (forall l1 y l2, l = l1 ++ y :: l2 -> y <> x -> len (without x l1) = j ->
     let l' := without x l1 ++ y :: without y l2 in
     exists s' v, vstep k sz dbg mal s (VOn i (UEraseVal (Elem j))) = Ok (s', Done (len l - len l')) /\
       nth_error (vs s') i = Some (Some v) /\ shows dbg v l').
Proof.
  intros s ss i l mal j x H L A K. destruct (at_inv l j x A) as (J & X).
  assert (RL : is_relocatable k = true) by (destruct K as [-> | ->]; reflexivity).
  destruct (vreach_inv k sz dbg SZ s ss H) as [R _]. destruct (srep_get k sz s ss i l R L) as (v & E & EG & V).
  destruct v as [b size cap|]; [|contradiction]. pose proof V as (V1 & V2 & _ & V4). destruct b as [b|]; [|lia]. subst size.
  destruct (erase_reloc k sz dbg mal b (len l) cap l (vacct s) j RL V J) as (v & a' & Q & W). rewrite <- X in Q, W.
  assert (G : forall l', sweep x j l = l' -> exists s' v, vstep k sz dbg mal s (VOn i (UEraseVal (Elem j))) = Ok (s', Done (len l - len l')) /\ nth_error (vs s') i = Some (Some v) /\ shows dbg v l').
  { intros l' <-. rewrite (step_of s i _ mal _ E _ Q). cbn [bind]. eexists _, v. split; [reflexivity|]. cbn [vs]. rewrite vupd_lset. split; [exact (lset_get i _ _ (vs s) E)|]. apply (vrep_shows k sz dbg). exact W. }
  split.
  - intros LE. apply G. apply sweep_without. auto.
  - intros l1 y l2 EL NE LJ. apply G. rewrite EL. apply sweep_lands; assumption.
Qed.
(** Of the other elements: right if it is the last, undefined otherwise. *)
Theorem C27_erase_own_destroyed : forall s ss i l mal j x, vreach k sz dbg s ss -> malloc_sane mal -> lget ss i = Some l -> at_ l j = Some x ->
  k <> KTriv -> k <> KReloc ->
  if j =? len l - 1
  then exists s' v, vstep k sz dbg mal s (VOn i (UEraseVal (Elem j))) = Ok (s', Done (len l - len (without x l))) /\
         nth_error (vs s') i = Some (Some v) /\ shows dbg v (without x l)
  else vstep k sz dbg mal s (VOn i (UEraseVal (Elem j))) = Undef.
Proof.
  intros s ss i l mal j x H MS L A K1 K2. destruct (at_inv l j x A) as (J & X).
  assert (RL : is_relocatable k = false) by (destruct k; congruence || reflexivity).
  destruct (vreach_inv k sz dbg SZ s ss H) as [R _]. destruct (srep_get k sz s ss i l R L) as (v & E & EG & V).
  destruct v as [b size cap|]; [|contradiction]. pose proof V as (V1 & V2 & _ & V4). destruct b as [b|]; [|lia]. subst size.
  destruct (Z.eqb_spec j (len l - 1)) as [JL|JL].
  - pose proof (erase_last k sz dbg mal b (len l) cap l (vacct s) j RL V ltac:(lia) ltac:(lia)) as Q. rewrite <- X in Q.
    rewrite (step_of s i _ mal _ E _ Q), <- (step_of s i _ mal (UEraseVal (Val x)) E _ eq_refl).
    apply (no_throw s i _ mal _ _ _ E).
    + intros v' a'. cbn [run_uop]. destruct (erase_loop _ _ _ _ _ _ _ _) as [[[? ?] ?]| |]; discriminate.
    + destruct (on_one k sz dbg SZ s ss i l mal (UEraseVal (Val x)) (without x l) (len l - len (without x l)) H MS L) as (s' & out & Q1 & Q2).
      * cbn [allowed_v]. rewrite E. split; [destruct k; exact Logic.I|exact Logic.I].
      * reflexivity.
      * exists s', out. split; [exact Q1|]. destruct out; [|exact Q2]. destruct Q2 as (_ & Q2 & Q3). split; [exact Q2|exact Q3].
  - rewrite (step_of s i _ mal _ E _ (erase_early k sz dbg mal b (len l) cap l (vacct s) j RL V ltac:(lia) ltac:(lia))). reflexivity.
Qed.
End K.

(** Each kind of element, with room: an element in front, one in the gap, one behind it. *)
Definition four : list vop := [VNewRange [1; 2; 3; 4]; VOn 0 (UReserve 12)].
Example own_triv : after KTriv 8 true plenty four (fun s ss => ss = [Some [1; 2; 3; 4]] /\ capacity_of 0 s = Ok 12 /\
  then_ (vstep KTriv 8 true plenty s (VOn 0 (UInsertN true 1 2 (Elem 0)))) (contents 0) = Ok ([1; 1; 1; 2; 3; 4], Done 1) /\
  then_ (vstep KTriv 8 true plenty s (VOn 0 (UInsertN true 1 2 (Elem 2)))) (contents 0) = Ok ([1; 3; 3; 2; 3; 4], Done 1) /\
  then_ (vstep KTriv 8 true plenty s (VOn 0 (UInsertN true 1 2 (Elem 3)))) (contents 0) = Ok ([1; 2; 2; 2; 3; 4], Done 1) /\
  then_ (vstep KTriv 8 true plenty s (VOn 0 (UResizeVal 6 (Elem 3)))) (contents 0) = Ok ([1; 2; 3; 4; 4; 4], Done 0) /\
  then_ (vstep KTriv 8 true plenty s (VOn 0 (UAssignN 3 (Elem 3)))) (contents 0) = Ok ([4; 4; 4], Done 0)).
Proof. split; [allowed_tac|vm_compute; auto 10]. Qed.
Example own_move : after KMove 8 true plenty four (fun s ss => ss = [Some [1; 2; 3; 4]] /\ capacity_of 0 s = Ok 12 /\
  then_ (vstep KMove 8 true plenty s (VOn 0 (UInsert true 1 (Elem 0)))) (contents 0) = Ok ([1; 1; 2; 3; 4], Done 1) /\
  vstep KMove 8 true plenty s (VOn 0 (UInsert true 1 (Elem 1))) = Undef /\
  then_ (vstep KMove 8 true plenty s (VOn 0 (UEmplace true 1 (Elem 3)))) (contents 0) = Ok ([1; 3; 2; 3; 4], Done 1) /\
  vstep KMove 8 true plenty s (VOn 0 (UInsertN true 1 9 (Elem 0))) = Undef /\
  vstep KMove 8 true plenty s (VOn 0 (UResizeVal 13 (Elem 0))) = Undef /\
  vstep KMove 8 true plenty s (VOn 0 (UAssignN 3 (Elem 3))) = Undef /\
  vstep KMove 8 true plenty s (VOn 0 (UAssignN 13 (Elem 3))) = Undef).
Proof. split; [allowed_tac|vm_compute; auto 10]. Qed.

(** The 1 that lands on the slot of the 2 takes the last 1 with it. *)
Example own_erase : after KTriv 8 true plenty [VNewRange [1; 2; 1; 3; 3; 1]] (fun s ss => ss = [Some [1; 2; 1; 3; 3; 1]] /\
  then_ (vstep KTriv 8 true plenty s (VOn 0 (UEraseVal (Elem 4)))) (contents 0) = Ok ([1; 2; 1; 1], Done 2) /\
  then_ (vstep KTriv 8 true plenty s (VOn 0 (UEraseVal (Elem 0)))) (contents 0) = Ok ([2; 1; 3; 3; 1], Done 1) /\
  then_ (vstep KTriv 8 true plenty s (VOn 0 (UEraseVal (Elem 1)))) (contents 0) = Ok ([1; 1; 3; 3], Done 2)).
Proof. split; [allowed_tac|vm_compute; auto 10]. Qed.
Example own_erase_moved : after KMove 8 true plenty [VNewRange [1; 2; 1; 3; 1]] (fun s ss => ss = [Some [1; 2; 1; 3; 1]] /\
  vstep KMove 8 true plenty s (VOn 0 (UEraseVal (Elem 2))) = Undef /\
  then_ (vstep KMove 8 true plenty s (VOn 0 (UEraseVal (Elem 4)))) (contents 0) = Ok ([2; 3], Done 3)).
Proof. split; [allowed_tac|vm_compute; auto 10]. Qed.

Print Assumptions C26_insert_in_place.
Print Assumptions C26_seen_right.
Print Assumptions C26_insert_grows.
Print Assumptions C26_resize_in_place.
Print Assumptions C26_resize_grows.
Print Assumptions C26_assign_in_place.
Print Assumptions C26_assign_grows.
Print Assumptions C27_erase_own.
Print Assumptions C27_erase_own_destroyed.
