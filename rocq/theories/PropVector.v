(** Properties C21 to C32 and C59: stdb_vector.

    [vreach k sz dbg s ss] (VecStatements): the vectors [s] are the result of
    a program of permitted calls, each with its own malloc, on vectors of an
    element type of kind [k] and size [sz], with assertions on or off ([dbg]);
    [ss] is what the same calls make of plain sequences (VecSpec). *)
Require Import ZArith List Bool Lia.
From Verif Require Import Base BaseProofs VecSpec VecModel VecStatements VecCases
  VecProofs VecProofs2 VecProofs3 VecProofs4 VecProofs5 VecProofs6.
Import ListNotations.
Open Scope Z_scope.

Section Vector.
Variable k : kind.
Variable sz : Z.
Variable dbg : bool.
Hypothesis SZ : size_ok sz.

(** C21: every vector shows its sequence: iteration, size(), empty(),
    operator[], front(), back(); and exists when it should.
    Missing: the calls excluded by [allowed_v], see the refutations below. *)
Theorem C21_sequence_partial : forall s ss i, vreach k sz dbg s ss ->
  match nth_error ss i with
  | Some (Some l) => exists v, nth_error (vs s) i = Some (Some v) /\ shows dbg v l
  | Some None => nth_error (vs s) i = Some None
  | None => nth_error (vs s) i = None
  end.
Proof.
  intros s ss i H. destruct (vreach_inv k sz dbg SZ s ss H) as [R _]. unfold srep in R. clear H. revert i.
  induction R as [|x y l l' O R IH]; intros [|i]; cbn; try reflexivity; [|apply IH].
  destruct x as [v|], y as [m|]; cbn in O; try contradiction; [|reflexivity].
  exists v. split; [reflexivity|]. eapply vrep_shows; eassumption.
Qed.

(** C21: and a call returns what the sequence operation returns (erase of a range excepted, C27). *)
Theorem C21_results_partial : forall s ss mal o s' r ss' r', vreach k sz dbg s ss -> malloc_sane mal ->
  allowed_v k sz dbg mal s o -> (forall i p q, o <> VOn i (UEraseRange p q)) ->
  vapply o ss = Some (ss', r') -> vstep k sz dbg mal s o = Ok (s', Done r) -> r = r'.
Proof.
  intros s ss mal o s' r ss' r' H MS AL NE VA ST.
  destruct (vstep_ok k sz dbg SZ mal MS s ss o ss' r' (proj1 (vreach_inv k sz dbg SZ s ss H)) AL VA) as (s1 & out & E & G).
  rewrite ST in E. injection E as <- <-. destruct G as (_ & _ & G).
  destruct o as [| | | | | | | | | |i u]; cbn in G; auto. destruct u; cbn in G; auto. destruct (NE i first last eq_refl).
Qed.

(** C22: no permitted call fails an assertion, reads or writes outside a
    buffer, reads a slot without an element, or destroys a slot without an
    object (the model is undefined there).  It throws only if malloc failed. *)
Theorem C22_never_faults_partial : forall s ss mal o ss' r', vreach k sz dbg s ss -> malloc_sane mal ->
  allowed_v k sz dbg mal s o -> vapply o ss = Some (ss', r') ->
  exists s' out, vstep k sz dbg mal s o = Ok (s', out) /\
    match out with
    | Done _ => vreach k sz dbg s' ss'
    | Threw => (exists n, mal n = false) /\ (unbroken s' -> vreach k sz dbg s' (vthrow o ss))
    end.
Proof.
  intros s ss mal o ss' r' H MS AL VA.
  destruct (vstep_ok k sz dbg SZ mal MS s ss o ss' r' (proj1 (vreach_inv k sz dbg SZ s ss H)) AL VA) as (s1 & out & E & G).
  exists s1, out. split; [exact E|]. destruct out as [r|].
  - eapply vreach_done; eassumption.
  - destruct G as [G _]. split; [exact G|]. intros U. eapply vreach_threw; eassumption.
Qed.

(** C22: start <= finish <= edge, and the buffer is as long as edge says. *)
Theorem C22_bounds : forall s ss i v, vreach k sz dbg s ss -> nth_error (vs s) i = Some (Some v) ->
  exists b size cap, v = Vec b size cap /\ 0 <= size <= cap /\ cap * sz < HALF /\
    match b with None => cap = 0 | Some bf => b_len bf = cap end.
Proof.
  intros s ss i v H E. destruct (vreach_inv k sz dbg SZ s ss H) as [R _].
  destruct (srep_get' k sz s ss i v R E) as (l & _ & V). destruct v as [b size cap|]; [|contradiction].
  destruct V as (V1 & V2 & V3 & V4). pose proof (len_nonneg l). exists b, size, cap. split; [reflexivity|].
  split; [lia|]. split; [exact V3|]. destruct b; [tauto|exact V4].
Qed.

(** C23: every object ever constructed in a buffer has been destroyed, was
    abandoned ([n_lost] live, [n_gone] moved-from), or is still in the buffer
    of some vector; with deleted moves none is abandoned and exactly the
    elements remain, with moves no live one is abandoned.  (Destroying a slot
    twice is undefined in the model: C22.) *)
Theorem C23_conservation : forall s ss, counted k = true -> vreach k sz dbg s ss ->
  n_con (vacct s) = n_des (vacct s) + n_lost (vacct s) + n_gone (vacct s) + sobjs (vs s).
Proof. intros s ss C H. pose proof (vreach_bal k sz dbg C s ss H) as B. unfold bal in B. lia. Qed.

Theorem C23_copy_only : forall s ss, k = KCopy -> vreach k sz dbg s ss ->
  n_con (vacct s) - n_des (vacct s) = total_len ss.
Proof.
  intros s ss -> H. pose proof (vreach_bal KCopy sz dbg eq_refl s ss H) as B. unfold bal in B.
  destruct (vreach_inv KCopy sz dbg SZ s ss H) as [R [K1 K2]]. specialize (K1 (or_intror eq_refl)). specialize (K2 eq_refl).
  cbn in K1, K2. rewrite <- (srep_objs sz s ss R). lia.
Qed.

Theorem C23_movable_partial : forall s ss, k = KMove -> vreach k sz dbg s ss -> n_lost (vacct s) = 0.
Proof. intros s ss -> H. destruct (vreach_inv KMove sz dbg SZ s ss H) as [_ [K1 _]]. apply K1. auto. Qed.

(** C24: the next capacity is larger, and 1.5 times as large from the initial capacity on.
    Missing: factor 1.5 below it ([C24_small_refuted]) and elements of more than
    131072 bytes ([C24_large_elements_refuted]). *)
Theorem C24_next_capacity_partial : forall cap, 0 <= cap -> cap * sz < HALF ->
  cap < next_capacity sz cap /\ (init_capacity sz <= cap -> 3 * cap <= 2 * next_capacity sz cap) /\
  next_capacity sz cap <= Z.max (init_capacity sz) (2 * cap).
Proof. intros cap H1 H2. destruct (next_facts sz cap SZ H1 H2) as (A & _ & B & C). auto. Qed.

(** C24: appending [n] elements one at a time to any vector moves at most 3(n + size) elements
    (missing: elements of more than 131072 bytes). *)
Theorem C24_amortised_partial : forall s ss i v l a n m v' a', vreach k sz dbg s ss ->
  nth_error (vs s) i = Some (Some v) -> lget ss i = Some l ->
  appended k sz dbg v a n m v' a' ->
  vsize v' = Ok (len l + n) /\ m <= 3 * (len l + n) /\ (counted k = true -> n_con a' - n_con a = n + m).
Proof.
  intros s ss i v l a n m v' a' H E EL AP. destruct (vreach_inv k sz dbg SZ s ss H) as [R _].
  destruct (srep_get' k sz s ss i v R E) as (l1 & L & V). rewrite L in EL. injection EL as ->.
  destruct v as [b size cap|]; [|contradiction]. destruct V as (V1 & V2 & V3 & V4). pose proof (len_nonneg l).
  destruct (appended_ok k sz dbg SZ b size cap a n m v' a' ltac:(lia) V3 AP) as (b' & cap' & -> & Q). subst size.
  split; [reflexivity|]. destruct Q as (_ & _ & _ & _ & _ & Q2 & _ & Q3). split; [exact Q2|]. intros C. rewrite (Q3 C). lia.
Qed.

Lemma on_one s ss i l mal o l' r' : vreach k sz dbg s ss -> malloc_sane mal -> lget ss i = Some l ->
  allowed_v k sz dbg mal s (VOn i o) -> apply o l = Some (l', r') ->
  exists s' out, vstep k sz dbg mal s (VOn i o) = Ok (s', out) /\
    match out with
    | Done r => vreach k sz dbg s' (lset i (Some l') ss) /\ ret_ok o r r' /\
                exists v, nth_error (vs s') i = Some (Some v) /\ shows dbg v l'
    | Threw => exists n, mal n = false
    end.
Proof.
  intros H MS L AL AP. assert (VA : vapply (VOn i o) ss = Some (lset i (Some l') ss, r')) by (cbn; rewrite L, AP; reflexivity).
  destruct (vreach_inv k sz dbg SZ s ss H) as [R _].
  destruct (vstep_ok k sz dbg SZ mal MS s ss _ _ _ R AL VA) as (s1 & out & E & G).
  exists s1, out. split; [exact E|]. destruct out as [r|]; [|exact (proj1 G)].
  assert (H1 : vreach k sz dbg s1 (lset i (Some l') ss)) by (eapply vreach_done; eassumption).
  split; [exact H1|]. split; [exact (proj2 (proj2 G))|].
  pose proof (C21_sequence_partial s1 _ i H1) as Q. unfold lget in L. destruct (nth_error ss i) as [x|] eqn:EN; [|discriminate].
  rewrite (lset_get i (Some l') x ss EN) in Q. exact Q.
Qed.

(** C25: push_back(v[j]) and emplace_back(v[j]), full or not. *)
Theorem C25_push_own_element : forall s ss i l mal j x o, vreach k sz dbg s ss -> malloc_sane mal ->
  lget ss i = Some l -> at_ l j = Some x -> (o = UPush true (Elem j) /\ k <> KReloc \/ o = UEmplaceBack true (Elem j)) ->
  exists s' out, vstep k sz dbg mal s (VOn i o) = Ok (s', out) /\
    match out with
    | Done _ => exists v, nth_error (vs s') i = Some (Some v) /\ shows dbg v (l ++ [x])
    | Threw => exists n, mal n = false
    end.
Proof.
  intros s ss i l mal j x o H MS L AT O. destruct (vreach_inv k sz dbg SZ s ss H) as [R _].
  destruct (srep_get k sz s ss i l R L) as (v & E & _ & V). destruct v as [b size cap|]; [|contradiction].
  destruct (on_one s ss i l mal o (l ++ [x]) (match o with UPush _ _ => 0 | _ => len l end) H MS L) as (s' & out & Q1 & Q2).
  - cbn [allowed_v]. rewrite E. destruct O as [[-> KR]| ->]; split; [destruct k; cbn; exact I || congruence|cbn; auto|destruct k; exact I|cbn; auto].
  - destruct O as [[-> _]| ->]; cbn [apply the_value]; rewrite AT; reflexivity.
  - exists s', out. split; [exact Q1|]. destruct out; tauto.
Qed.

(** C26, for arguments outside the vector only. *)
Theorem C26_outside_arguments_partial : forall s ss i l mal o l' r', vreach k sz dbg s ss -> malloc_sane mal ->
  lget ss i = Some l -> allowed_v k sz dbg mal s (VOn i o) ->
  (exists x, o = UAssignN (len l') (Val x) \/ o = UResizeVal (len l') (Val x) \/
             exists safe p, o = UInsert safe p (Val x) \/ o = UEmplace safe p (Val x) \/ exists n, o = UInsertN safe p n (Val x)) ->
  apply o l = Some (l', r') ->
  exists s' out, vstep k sz dbg mal s (VOn i o) = Ok (s', out) /\
    match out with
    | Done r => r = r' /\ exists v, nth_error (vs s') i = Some (Some v) /\ shows dbg v l'
    | Threw => exists n, mal n = false
    end.
Proof.
  intros s ss i l mal o l' r' H MS L AL O AP.
  destruct (on_one s ss i l mal o l' r' H MS L AL AP) as (s' & out & Q1 & Q2). exists s', out. split; [exact Q1|].
  destruct out; [|exact Q2]. destruct Q2 as (_ & Q2 & Q3). split; [|exact Q3].
  destruct O as (x & [->|[->|(safe & p & [->|[->|(n & ->)]])]]); exact Q2.
Qed.

(** C27: one position, a range, a value outside the vector, a predicate.  Of
    the results the one of the range is wrong (C27_range_result_refuted). *)
Theorem C27_erase_partial : forall s ss i l mal o l' r', vreach k sz dbg s ss -> malloc_sane mal ->
  lget ss i = Some l ->
  (exists p, o = UErase p /\ 0 <= p < len l /\ l' = take p l ++ drop (p + 1) l /\ r' = p) \/
  (exists p q, o = UEraseRange p q /\ 0 <= p <= q /\ q <= len l /\ l' = take p l ++ drop q l /\ r' = q) \/
  (exists x, o = UEraseVal (Val x) /\ l' = filter (fun y => negb (y =? x)) l /\ r' = len l - len l') \/
  (exists f, o = UEraseIf f /\ l' = filter (fun y => negb (f y)) l /\ r' = len l - len l') ->
  exists s', vstep k sz dbg mal s (VOn i o) = Ok (s', Done r') /\
    exists v, nth_error (vs s') i = Some (Some v) /\ shows dbg v l'.
Proof.
  intros s ss i l mal o l' r' H MS L O. destruct (vreach_inv k sz dbg SZ s ss H) as [R _].
  destruct (srep_get k sz s ss i l R L) as (v & E & EG & V). destruct v as [b size cap|]; [|contradiction].
  assert (D : forall l1 r1, allowed_v k sz dbg mal s (VOn i o) -> apply o l = Some (l1, r1) -> l1 = l' -> (forall r, ret_ok o r r1 -> r = r') ->
    (forall s1, vstep k sz dbg mal s (VOn i o) <> Ok (s1, Threw)) ->
    exists s', vstep k sz dbg mal s (VOn i o) = Ok (s', Done r') /\
    exists v, nth_error (vs s') i = Some (Some v) /\ shows dbg v l').
  { intros l1 r1 A1 A2 -> A3 A4. destruct (on_one s ss i l mal o l' r1 H MS L A1 A2) as (s' & out & Q1 & Q2).
    destruct out as [r|]; [|destruct (A4 s' Q1)]. destruct Q2 as (_ & Q2 & Q3). rewrite (A3 r Q2) in Q1. exists s'. auto. }
  assert (NT : match o with UErase _ | UEraseRange _ _ | UEraseVal _ | UEraseIf _ => True | _ => False end ->
               forall s1, vstep k sz dbg mal s (VOn i o) <> Ok (s1, Threw)).
  { intros P s1. cbn [vstep]. rewrite EG. cbn [bind].
    destruct o; try contradiction; cbn [run_uop]; intros Q; repeat VecProofs6.st; discriminate. }
  destruct O as [(p & -> & Q1 & Q2 & Q3)|[(p & q & -> & Q1 & Q2 & Q3 & Q4)|[(x & -> & Q2 & Q3)|(f & -> & Q2 & Q3)]]].
  - apply (D (take p l ++ drop (p + 1) l) p); [| |auto| |apply NT; exact I].
    + cbn [allowed_v]. rewrite E. cbn. destruct k; cbn; auto.
    + cbn [apply]. replace ((0 <=? p) && (p <? len l)) with true; [reflexivity|].
      symmetry; apply andb_true_iff; split; [apply Z.leb_le|apply Z.ltb_lt]; lia.
    + cbn. congruence.
  - apply (D (take p l ++ drop q l) p); [| |auto| |apply NT; exact I].
    + cbn [allowed_v]. rewrite E. cbn. destruct k; cbn; auto.
    + cbn [apply]. replace ((0 <=? p) && (p <=? q) && (q <=? len l)) with true; [reflexivity|].
      symmetry; rewrite !andb_true_iff; repeat split; apply Z.leb_le; lia.
    + cbn. intros r [-> _]. auto.
  - apply (D l' (len l - len l')); [| |auto| |apply NT; exact I].
    + cbn [allowed_v]. rewrite E. cbn. destruct k; cbn; auto.
    + cbn [apply the_value]. rewrite <- Q2. reflexivity.
    + cbn. congruence.
  - apply (D l' (len l - len l')); [| |auto| |apply NT; exact I].
    + cbn [allowed_v]. rewrite E. cbn. destruct k; cbn; auto.
    + cbn [apply the_value]. rewrite <- Q2. reflexivity.
    + cbn. congruence.
Qed.

(** C28: reserve(n), when it returns, leaves a capacity of at least n and the contents;
    shrink_to_fit leaves capacity = size and the contents.  (resize: C21.) *)
Theorem C28_reserve_partial : forall s ss i l c mal n, vreach k sz dbg s ss -> malloc_sane mal -> lget ss i = Some l ->
  capacity_of i s = Ok c -> allowed_v k sz dbg mal s (VOn i (UReserve n)) ->
  exists s' out, vstep k sz dbg mal s (VOn i (UReserve n)) = Ok (s', out) /\
    match out with
    | Done _ => capacity_of i s' = Ok (Z.max c n) /\ exists v, nth_error (vs s') i = Some (Some v) /\ shows dbg v l
    | Threw => exists m, mal m = false
    end.
Proof.
  intros s ss i l c mal n H MS L CO AL. destruct (vreach_inv k sz dbg SZ s ss H) as [R _].
  destruct (srep_get k sz s ss i l R L) as (v & E & EG & V).
  unfold capacity_of in *. rewrite EG in CO. cbn [bind] in CO.
  assert (N0 : 0 <= n). { cbn [allowed_v] in AL. rewrite E in AL. destruct v; [|contradiction]. destruct AL as (_ & [A _] & _). exact A. }
  destruct (on_one s ss i l mal (UReserve n) l 0 H MS L AL) as (s' & out & Q1 & Q2).
  { cbn. destruct (Z.ltb_spec n 0); [lia|reflexivity]. }
  exists s', out. split; [exact Q1|]. destruct out as [r|]; [|exact Q2]. destruct Q2 as (_ & _ & Q3). split; [|exact Q3].
  cbn [vstep] in Q1. rewrite EG in Q1. cbn [bind] in Q1. VecProofs6.st. VecProofs6.st. VecProofs6.st. VecProofs6.st.
  unfold vget. cbn [vs]. rewrite vupd_lset. rewrite (lset_get i _ (Some v) (vs s) E). cbn [bind].
  eapply reserve_cap; eassumption.
Qed.
Theorem C28_shrink : forall s ss i l mal, vreach k sz dbg s ss -> malloc_sane mal -> lget ss i = Some l ->
  exists s' out, vstep k sz dbg mal s (VOn i UShrink) = Ok (s', out) /\
    match out with
    | Done _ => capacity_of i s' = Ok (len l) /\ exists v, nth_error (vs s') i = Some (Some v) /\ shows dbg v l
    | Threw => exists m, mal m = false
    end.
Proof.
  intros s ss i l mal H MS L. destruct (vreach_inv k sz dbg SZ s ss H) as [R _].
  destruct (srep_get k sz s ss i l R L) as (v & E & EG & V).
  destruct (on_one s ss i l mal UShrink l 0 H MS L) as (s' & out & Q1 & Q2).
  { cbn [allowed_v]. rewrite E. destruct v; [|contradiction]. cbn. destruct k; cbn; auto. }
  { reflexivity. }
  exists s', out. split; [exact Q1|]. destruct out as [r|]; [|exact Q2]. destruct Q2 as (_ & _ & Q3). split; [|exact Q3].
  cbn [vstep] in Q1. rewrite EG in Q1. cbn [bind] in Q1. VecProofs6.st. VecProofs6.st. VecProofs6.st. VecProofs6.st.
  unfold capacity_of, vget. cbn [vs]. rewrite vupd_lset. rewrite (lset_get i _ (Some v) (vs s) E). cbn [bind].
  eapply shrink_cap; eassumption.
Qed.
(** C28: while the elements fit, no memory is asked for (the step is the same
    with a malloc that serves nothing) and the capacity stays. *)
Theorem C28_in_place : forall s ss i v l c mal o l' r', vreach k sz dbg s ss -> lget ss i = Some l ->
  nth_error (vs s) i = Some (Some v) -> vcapacity v = Ok c ->
  apply o l = Some (l', r') -> len l' <= c -> ~ asks_for_buffer v o ->
  vstep k sz dbg mal s (VOn i o) = vstep k sz dbg nothing s (VOn i o) /\
  forall s' r, vstep k sz dbg mal s (VOn i o) = Ok (s', Done r) -> capacity_of i s' = Ok c.
Proof.
  intros s ss i v l c mal o l' r' H L E C AP LE NA. destruct (vreach_inv k sz dbg SZ s ss H) as [R _].
  destruct (srep_get' k sz s ss i v R E) as (l1 & L1 & V). rewrite L1 in L. injection L as ->.
  destruct (in_place k sz dbg SZ mal v l (vacct s) o l' r' c V AP C LE NA) as [Q1 Q2].
  cbn [vstep]. unfold vget. rewrite E. cbn [bind]. split; [rewrite Q1; reflexivity|].
  intros s' r Q. VecProofs6.st. VecProofs6.st. VecProofs6.st. VecProofs6.st.
  unfold capacity_of, vget. cbn [vs]. rewrite vupd_lset. rewrite (lset_get i _ (Some v) (vs s) E). cbn [bind].
  eapply Q2; reflexivity.
Qed.

(** C29: what a call does to the vectors it does not name: nothing. *)
Definition names (o : vop) (i : nat) : Prop :=
  match o with
  | VNew | VNewN _ | VNewFill _ _ | VNewRange _ | VCopy _ => False
  | VMove j => i = j
  | VAssign j _ => i = j
  | VAssignMove j m | VSwap j m => i = j \/ i = m
  | VDestroy j | VOn j _ => i = j
  end.
Theorem C29_independent : forall mal s o s' out i v, nth_error (vs s) i = Some v -> ~ names o i ->
  vstep k sz dbg mal s o = Ok (s', out) -> nth_error (vs s') i = Some v.
Proof.
  intros mal s o s' out i v E N H.
  assert (AP : forall x, nth_error (vs s ++ [x]) i = Some v).
  { intros x. rewrite nth_error_app1; [exact E|]. apply nth_error_Some. rewrite E. discriminate. }
  assert (UP : forall j x l, i <> j -> nth_error (vupd j x l) i = nth_error l i).
  { intros j x l D. apply vupd_nth_other. auto. }
  destruct o as [|n|n x|l|j|j|m j|m j|m j|m|m u]; cbn [names] in N; cbn [vstep] in H; unfold vpush, allocate in H.
  all: try solve [repeat VecProofs6.st; cbn [vs]; apply AP].
  - repeat VecProofs6.st. cbn [vs]. rewrite nth_error_app1; [rewrite UP by auto; exact E|].
    apply nth_error_Some. rewrite UP by auto. rewrite E. discriminate.
  - repeat VecProofs6.st; cbn [vs]; rewrite ?UP by auto; exact E.
  - repeat VecProofs6.st; cbn [vs]; rewrite ?UP by auto; exact E.
  - repeat VecProofs6.st; cbn [vs]; rewrite ?UP by auto; exact E.
  - repeat VecProofs6.st; cbn [vs]; rewrite ?UP by auto; exact E.
  - repeat VecProofs6.st; cbn [vs]; rewrite ?UP by auto; exact E.
Qed.
(** C29: the new vector of a copy or move, and the source.  The assignments
    and swap are in C21 through [vapply], restated: *)
Theorem C29_construct : forall s ss j l mal, vreach k sz dbg s ss -> malloc_sane mal -> lget ss j = Some l ->
  (k <> KReloc -> exists s' out, vstep k sz dbg mal s (VCopy j) = Ok (s', out) /\
     (out <> Threw -> vreach k sz dbg s' (ss ++ [Some l]))) /\
  exists s' r, vstep k sz dbg mal s (VMove j) = Ok (s', Done r) /\ vreach k sz dbg s' (lset j (Some []) ss ++ [Some l]).
Proof.
  intros s ss j l mal H MS L. split.
  - intros KR. destruct (C22_never_faults_partial s ss mal (VCopy j) (ss ++ [Some l]) 0 H MS KR) as (s' & out & E & G).
    { cbn. rewrite L. reflexivity. }
    exists s', out. split; [exact E|]. destruct out; [auto|congruence].
  - destruct (C22_never_faults_partial s ss mal (VMove j) (lset j (Some []) ss ++ [Some l]) 0 H MS I) as (s' & out & E & G).
    { cbn. rewrite L. reflexivity. }
    destruct out as [r|]; [exists s', r; auto|]. exfalso. cbn [vstep] in E. VecProofs6.st. discriminate.
Qed.
Theorem C29_assign : forall s ss i j l m mal, vreach k sz dbg s ss -> malloc_sane mal -> lget ss i = Some l -> lget ss j = Some m -> i <> j ->
  (k <> KReloc -> exists s' out, vstep k sz dbg mal s (VAssign i j) = Ok (s', out) /\
     (out <> Threw -> vreach k sz dbg s' (lset i (Some m) ss))) /\
  (exists s' r, vstep k sz dbg mal s (VAssignMove i j) = Ok (s', Done r) /\ vreach k sz dbg s' (lset j (Some []) (lset i (Some m) ss))) /\
  (exists s' r, vstep k sz dbg mal s (VSwap i j) = Ok (s', Done r) /\ vreach k sz dbg s' (lset j (Some l) (lset i (Some m) ss))).
Proof.
  intros s ss i j l m mal H MS L1 L2 N. split; [|split].
  - intros KR. destruct (C22_never_faults_partial s ss mal (VAssign i j) (lset i (Some m) ss) 0 H MS KR) as (s' & out & E & G).
    { cbn. rewrite L1, L2. reflexivity. }
    exists s', out. split; [exact E|]. destruct out; [auto|congruence].
  - destruct (C22_never_faults_partial s ss mal (VAssignMove i j) (lset j (Some []) (lset i (Some m) ss)) 0 H MS I) as (s' & out & E & G).
    { cbn. rewrite L1, L2. destruct (Nat.eqb_spec i j); [contradiction|reflexivity]. }
    destruct out as [r|]; [exists s', r; auto|]. exfalso. cbn [vstep] in E. repeat VecProofs6.st; discriminate.
  - destruct (C22_never_faults_partial s ss mal (VSwap i j) (lset j (Some l) (lset i (Some m) ss)) 0 H MS I) as (s' & out & E & G).
    { cbn. rewrite L1, L2. reflexivity. }
    destruct out as [r|]; [exists s', r; auto|]. exfalso. cbn [vstep] in E. repeat VecProofs6.st; discriminate.
Qed.

(** C30: assign of [n] copies or of a list.  Missing: an empty list on a
    non-empty vector, and n = 0 with assertions on (refuted below). *)
Theorem C30_assign_partial : forall s ss i l mal o new, vreach k sz dbg s ss -> malloc_sane mal -> lget ss i = Some l ->
  new <> [] -> len new * sz < M64 ->
  (o = UAssignRange new /\ k <> KReloc \/ exists x, o = UAssignN (len new) (Val x) /\ new = fill_with (len new) x) ->
  exists s' out, vstep k sz dbg mal s (VOn i o) = Ok (s', out) /\
    match out with
    | Done _ => exists v, nth_error (vs s') i = Some (Some v) /\ shows dbg v new
    | Threw => exists m, mal m = false
    end.
Proof.
  intros s ss i l mal o new H MS L NE F O. destruct (vreach_inv k sz dbg SZ s ss H) as [R _].
  destruct (srep_get k sz s ss i l R L) as (v & E & EG & V). destruct v as [b size cap|]; [|contradiction].
  pose proof (len_nonneg new) as LN. assert (LP : 0 < len new) by (destruct new; [congruence|unfold len; cbn [length]; lia]).
  destruct (on_one s ss i l mal o new 0 H MS L) as (s' & out & Q1 & Q2).
  - cbn [allowed_v]. rewrite E. destruct O as [[-> KR]|(x & -> & _)]; cbn [allowed kind_ok is_val]; unfold fits.
    + split; [destruct k; cbn; auto|]. auto.
    + split; [destruct k; cbn; auto|]. auto.
  - destruct O as [[-> _]|(x & -> & EQ)]; cbn [apply the_value]; [reflexivity|].
    destruct (Z.ltb_spec (len new) 0); [lia|]. rewrite <- EQ. reflexivity.
  - exists s', out. split; [exact Q1|]. destruct out; tauto.
Qed.

(** C31: fill appends what the filler wrote.  get_writebuffer: only when the
    elements fit the capacity. *)
Theorem C31_fill_partial : forall s ss i l c mal new, vreach k sz dbg s ss -> malloc_sane mal -> lget ss i = Some l ->
  capacity_of i s = Ok c -> c <> 0 -> (len l + len new) * sz < M64 ->
  exists s' out, vstep k sz dbg mal s (VOn i (UFill true (len new) new)) = Ok (s', out) /\
    match out with
    | Done _ => exists v, nth_error (vs s') i = Some (Some v) /\ shows dbg v (l ++ new)
    | Threw => exists m, mal m = false
    end.
Proof.
  intros s ss i l c mal new H MS L CO C0 F. destruct (vreach_inv k sz dbg SZ s ss H) as [R _].
  destruct (srep_get k sz s ss i l R L) as (v & E & EG & V). destruct v as [b size cap|]; [|contradiction].
  unfold capacity_of in CO. rewrite EG in CO. cbn in CO. injection CO as <-. destruct V as (V1 & V2 & V3 & V4).
  pose proof (len_nonneg new). pose proof (len_nonneg l).
  destruct (on_one s ss i l mal (UFill true (len new) new) (l ++ new) 0 H MS L) as (s' & out & Q1 & Q2).
  - cbn [allowed_v]. rewrite E. cbn [allowed]. split; [destruct k; exact I|]. unfold room, fits.
    split; [subst size; lia|]. intros _. destruct b; [exact I|contradiction].
  - cbn. rewrite Z.eqb_refl. reflexivity.
  - exists s', out. split; [exact Q1|]. destruct out; tauto.
Qed.
Theorem C31_write_buffer_partial : forall s ss i l c mal safe new, vreach k sz dbg s ss -> malloc_sane mal -> lget ss i = Some l ->
  capacity_of i s = Ok c -> len l + len new <= c ->
  exists s', vstep k sz dbg mal s (VOn i (UWriteBuffer safe new)) = Ok (s', Done (len l)) /\
    exists v, nth_error (vs s') i = Some (Some v) /\ shows dbg v (l ++ new).
Proof.
  intros s ss i l c mal safe new H MS L CO F. destruct (vreach_inv k sz dbg SZ s ss H) as [R _].
  destruct (srep_get k sz s ss i l R L) as (v & E & EG & V). destruct v as [b size cap|]; [|contradiction].
  unfold capacity_of in CO. rewrite EG in CO. cbn in CO. injection CO as <-. pose proof V as (V1 & V2 & V3 & V4).
  assert (AP : apply (UWriteBuffer safe new) l = Some (l ++ new, len l)) by reflexivity.
  destruct (on_one s ss i l nothing (UWriteBuffer safe new) (l ++ new) (len l) H nothing_sane L) as (s' & out & Q1 & Q2).
  - cbn [allowed_v]. rewrite E. cbn [allowed]. split; [destruct k; exact I|]. left. lia.
  - exact AP.
  - destruct (C28_in_place s ss i _ l cap mal (UWriteBuffer safe new) (l ++ new) (len l) H L E eq_refl AP) as [Q3 _].
    { rewrite len_app. lia. }
    { cbn. auto. }
    rewrite Q3. destruct out as [r|].
    + destruct Q2 as (_ & Q2 & Q4). cbn in Q2. subst r. exists s'. auto.
    + exfalso. cbn [vstep] in Q1. rewrite EG in Q1. cbn [bind run_uop] in Q1.
      replace (cap <? size + len new) with false in Q1 by (symmetry; apply Z.ltb_ge; lia). rewrite andb_false_r in Q1. cbn [bind] in Q1.
      repeat VecProofs6.st; discriminate.
Qed.

(** C32: == is equality of sequences, <=> the lexicographic order... *)
Theorem C32_equal : forall s ss i j v w l m, vreach k sz dbg s ss ->
  nth_error (vs s) i = Some (Some v) -> lget ss i = Some l -> nth_error (vs s) j = Some (Some w) -> lget ss j = Some m ->
  exists b, vec_eq dbg v w = Ok b /\ (b = true <-> l = m).
Proof.
  intros s ss i j v w l m H E1 L1 E2 L2. destruct (vreach_inv k sz dbg SZ s ss H) as [R _].
  destruct (srep_get' k sz s ss i v R E1) as (l' & L1' & V). rewrite L1' in L1. injection L1 as ->.
  destruct (srep_get' k sz s ss j w R E2) as (m' & L2' & W). rewrite L2' in L2. injection L2 as ->.
  eapply vec_eq_ok; eassumption.
Qed.
Theorem C32_order : forall s ss i j v w l m, vreach k sz dbg s ss ->
  nth_error (vs s) i = Some (Some v) -> lget ss i = Some l -> nth_error (vs s) j = Some (Some w) -> lget ss j = Some m ->
  exists c, vec_cmp dbg v w = Ok c /\ match c with Lt => lex_lt l m | Gt => lex_lt m l | Eq => l = m end.
Proof.
  intros s ss i j v w l m H E1 L1 E2 L2. destruct (vreach_inv k sz dbg SZ s ss H) as [R _].
  destruct (srep_get' k sz s ss i v R E1) as (l' & L1' & V). rewrite L1' in L1. injection L1 as ->.
  destruct (srep_get' k sz s ss j w R E2) as (m' & L2' & W). rewrite L2' in L2. injection L2 as ->.
  eapply vec_cmp_ok; eassumption.
Qed.

(** C59: shifting the tail left, and right by any distance. *)
Theorem C59_left : forall b a d s e, 0 <= d < s -> s <= e -> e <= b_len b ->
  (forall j, s <= j < e -> exists v, b_at b j = Live v) -> (forall j, d <= j < s -> b_at b j = Raw) ->
  exists b' a', move_forward k dbg b a d s e = Ok (b', a') /\
    (forall j, 0 <= j < e - s -> b_at b' (d + j) = b_at b (s + j)) /\
    (forall j, 0 <= j < d \/ e <= j -> b_at b' j = b_at b j).
Proof.
  intros b a d s e H1 H2 H3 HL HR. destruct (move_forward_ok k dbg b a d s e) as (b' & a' & E & _ & M); try lia.
  - exact HL.
  - intros j J1 J2. rewrite HR by lia. apply spare_raw.
  - exists b', a'. split; [exact E|]. destruct M as (_ & M1 & _ & M2). split.
    + intros j J. rewrite M1 by lia. f_equal. lia.
    + intros j J. apply M2; lia.
Qed.
Theorem C59_right : forall b a p n size, k <> KReloc -> 0 <= p < size -> 0 < n -> size + n <= b_len b ->
  (forall j, p <= j < size -> exists v, b_at b j = Live v) -> (forall j, size <= j < size + n -> b_at b j = Raw) ->
  exists b' a', open_gap k dbg b a p n size = Ok (b', a') /\
    (forall j, p <= j < size -> b_at b' (j + n) = b_at b j) /\
    (forall j, 0 <= j < p \/ size + n <= j -> b_at b' j = b_at b j).
Proof.
  intros b a p n size KR H1 N H3 HL HR. unfold open_gap. destruct (Z.leb_spec size (p + n)).
  - destruct (move_forward_ok k dbg b a (p + n) p size) as (b' & a' & E & _ & M); try lia.
    + exact HL.
    + intros j J1 J2. rewrite HR by lia. apply spare_raw.
    + exists b', a'. split; [exact E|]. destruct M as (_ & M1 & _ & M2). split.
      * intros j J. rewrite M1 by lia. f_equal. lia.
      * intros j J. apply M2; lia.
  - destruct (move_backward_ok k dbg b a (p + n) p size) as (b' & a' & E & _ & M); try lia; auto.
    + intros j J1 J2. rewrite HR by lia. apply spare_raw.
    + exists b', a'. split; [exact E|]. destruct M as (_ & M1 & _ & M2). split.
      * intros j J. rewrite M1 by lia. f_equal. lia.
      * intros j J. apply M2; lia.
Qed.
End Vector.

(** C32: ... which is a total order. *)
Theorem C32_total_order : (forall l, ~ lex_lt l l) /\ (forall l m p, lex_lt l m -> lex_lt m p -> lex_lt l p) /\
  (forall l m, lex_lt l m \/ l = m \/ lex_lt m l).
Proof. split; [exact lex_irrefl|]. split; [exact lex_trans|exact lex_total]. Qed.

(** * Examples: a program using most operations, for each kind of element. *)
Definition busy : list vop :=
  [VNewRange [1; 2; 3]; VNew; VOn 1 (UPush true (Val 7)); VOn 1 (UPush true (Elem 0)); VCopy 0; VOn 0 (UInsert true 1 (Val 9));
   VOn 0 (UErase 0); VOn 2 (UResize 12); VOn 2 (UEraseRange 3 11); VMove 2; VAssign 1 3; VOn 3 (UInsertN true 2 10 (Val 5)); VSwap 0 1;
   VOn 0 UShrink; VOn 0 (UEmplaceBack true (Elem 2)); VOn 3 (UEraseIf (fun x => x =? 5)); VDestroy 1].
Definition busy_end : list (option (list Z)) := [Some [1; 2; 3; 0; 3]; None; Some []; Some [1; 2; 3; 0]].
(** What is left without copying. *)
Definition busy_reloc : list vop :=
  [VNewFill 3 1; VNew; VOn 1 (UEmplaceBack true (Val 7)); VOn 1 (UEmplaceBack true (Elem 0));
   VOn 0 (UResize 12); VOn 0 (UEraseRange 1 11); VMove 0; VSwap 0 1; VOn 0 (UReserve 30); VOn 2 UPop; VDestroy 1].

Example busy_triv : after KTriv 4 true plenty busy (fun s ss => ss = busy_end /\ contents 0 s = Ok [1; 2; 3; 0; 3] /\ capacity_of 0 s = Ok 16).
Proof. split; [allowed_tac|vm_compute; auto]. Qed.
Example busy_copy : after KCopy 8 true plenty busy (fun s ss => ss = busy_end /\ contents 3 s = Ok [1; 2; 3; 0] /\
  n_con (vacct s) = 61 /\ n_des (vacct s) = 52 /\ n_lost (vacct s) = 0 /\ n_gone (vacct s) = 0).
Proof. split; [allowed_tac|vm_compute; auto 10]. Qed.
Example busy_move : after KMove 24 true plenty busy (fun s ss => ss = busy_end /\ contents 0 s = Ok [1; 2; 3; 0; 3] /\
  n_lost (vacct s) = 0).
Proof. split; [allowed_tac|vm_compute; auto]. Qed.
Example busy_copymove : after KCopyMove 24 false plenty busy (fun s ss => ss = busy_end /\ contents 0 s = Ok [1; 2; 3; 0; 3]).
Proof. split; [allowed_tac|vm_compute; auto]. Qed.
Example busy_relocatable : after KReloc 16 true plenty busy_reloc (fun s ss => ss = [Some [7; 7]; None; Some [1]] /\ contents 0 s = Ok [7; 7]).
Proof. split; [allowed_tac|vm_compute; auto]. Qed.
Example busy_reachable : exists s ss, vreach KMove 24 true s ss /\ ss = busy_end /\ contents 0 s = Ok [1; 2; 3; 0; 3] /\ n_lost (vacct s) = 0.
Proof. exact (after_reach KMove 24 true plenty busy _ plenty_sane busy_move). Qed.

(** push_back of an own element into a full vector (8 elements of 8 bytes, C25), and a failing malloc. *)
Definition eight : list vop := [VNewRange [1; 2; 3; 4; 5; 6; 7; 8]].
Example C25_example : after KCopy 8 true plenty eight (fun s ss =>
  then_ (vstep KCopy 8 true plenty s (VOn 0 (UPush true (Elem 2)))) (contents 0) = Ok ([1; 2; 3; 4; 5; 6; 7; 8; 3], Done 0)).
Proof. split; [allowed_tac|vm_compute; auto]. Qed.
Example C22_throw_example : after KMove 8 true plenty eight (fun s ss =>
  then_ (vstep KMove 8 true little s (VOn 0 (UInsert true 3 (Val 0)))) (contents 0) = Ok ([1; 2; 3; 0; 4; 5; 6; 7; 8], Done 3) /\
  then_ (vstep KMove 8 true nothing s (VOn 0 (UInsert true 3 (Val 0)))) (contents 0) = Ok ([1; 2; 3; 4; 5; 6; 7; 8], Threw)).
Proof. split; [allowed_tac|]. vm_compute. auto. Qed.

(** C24: appending 100 elements of 8 bytes to an empty vector. *)
Fixpoint push_many (n : nat) (v : vec) (a : acct) : res (vec * acct) :=
  match n with
  | O => Ok (v, a)
  | S m => do (v1, a1, _) <- run_uop KMove 8 true plenty v a (UPush true (Val (Z.of_nat n))); push_many m v1 a1
  end.
Example C24_example : (do (v, a) <- push_many 100 (Vec None 0 0) no_acct; do c <- vcapacity v; Ok (c, n_con a)) = Ok (140, 361).
Proof. vm_compute. reflexivity. Qed.
(** C32 *)
Example C32_example : after KTriv 4 true plenty [VNewRange [1; 2]; VNewRange [1; 2; 0]; VNewRange [1; 3]; VCopy 0] (fun s ss =>
  match vs s with
  | [Some a; Some b; Some c; Some d] =>
      vec_cmp true a b = Ok Lt /\ vec_cmp true c b = Ok Gt /\ vec_cmp true a d = Ok Eq /\ vec_eq true a d = Ok true /\ vec_eq true a b = Ok false
  | _ => False
  end).
Proof. split; [allowed_tac|vm_compute; auto 10]. Qed.
(** C59: five elements at 3..7 of a buffer of 10, two to the right and three to the left. *)
Definition buf10 : buf := {| b_len := 10; b_at := fun j => if (3 <=? j) && (j <? 8) then Live j else Raw |}.
Example C59_example :
  match open_gap KMove true buf10 no_acct 3 2 8, move_forward KMove true buf10 no_acct 0 3 8 with
  | Ok (b, _), Ok (c, _) => map (b_at b) [5; 6; 7; 8; 9] = map Live [3; 4; 5; 6; 7] /\ map (b_at c) [0; 1; 2; 3; 4] = map Live [3; 4; 5; 6; 7]
  | _, _ => False
  end.
Proof. vm_compute. auto. Qed.

(** * What is false of the code. *)

(** C30: assigning an empty range leaves the size; the elements are destroyed
    again when the vector is. *)
Theorem C30_empty_range_refuted : exists s ss, vreach KCopy 8 true s ss /\
  vapply (VOn 0 (UAssignRange [])) ss = Some ([Some []], 0) /\
  then_ (vstep KCopy 8 true plenty s (VOn 0 (UAssignRange []))) (size_of 0) = Ok (2, Done 0) /\
  (do (s1, _) <- vstep KCopy 8 true plenty s (VOn 0 (UAssignRange [])); vstep KCopy 8 true plenty s1 (VDestroy 0)) = Undef.
Proof. apply (after_reach KCopy 8 true plenty [VNewRange [1; 2]]); [exact plenty_sane|]. split; [allowed_tac|vm_compute; auto]. Qed.
(** C30: assign(0, x) fails an assertion. *)
Theorem C30_zero_refuted : exists s ss, vreach KTriv 8 true s ss /\
  vapply (VOn 0 (UAssignN 0 (Val 7))) ss = Some ([Some []], 0) /\
  vstep KTriv 8 true plenty s (VOn 0 (UAssignN 0 (Val 7))) = AssertFail.
Proof. apply (after_reach KTriv 8 true plenty [VNewRange [1; 2]]); [exact plenty_sane|]. split; [allowed_tac|vm_compute; auto]. Qed.

(** C31: get_writebuffer(8) of a full vector of 8 elements gives a range outside the buffer
    (an assertion fails if they are on); get_writebuffer(9) too, whatever the mode. *)
Theorem C31_write_buffer_refuted : exists s ss, vreach KTriv 8 false s ss /\
  vstep KTriv 8 false plenty s (VOn 0 (UWriteBuffer true [1; 2; 3; 4; 5; 6; 7; 8])) = Undef.
Proof. apply (after_reach KTriv 8 false plenty eight); [exact plenty_sane|]. split; [allowed_tac|vm_compute; auto]. Qed.
Theorem C31_write_buffer_debug_refuted : exists s ss, vreach KTriv 8 true s ss /\
  vstep KTriv 8 true plenty s (VOn 0 (UWriteBuffer true [1; 2; 3; 4; 5; 6; 7; 8])) = AssertFail /\
  vstep KTriv 8 true plenty s (VOn 0 (UWriteBuffer true [1; 2; 3; 4; 5; 6; 7; 8; 9])) = Undef.
Proof. apply (after_reach KTriv 8 true plenty eight); [exact plenty_sane|]. split; [allowed_tac|vm_compute; auto]. Qed.

(** C27: erase(first, last) returns last, which is not the following element. *)
Theorem C27_range_result_refuted : exists s ss, vreach KTriv 8 true s ss /\
  vapply (VOn 0 (UEraseRange 1 3)) ss = Some ([Some [1; 4; 5; 6; 7; 8]], 1) /\
  then_ (vstep KTriv 8 true plenty s (VOn 0 (UEraseRange 1 3))) (contents 0) = Ok ([1; 4; 5; 6; 7; 8], Done 3).
Proof. apply (after_reach KTriv 8 true plenty eight); [exact plenty_sane|]. split; [allowed_tac|vm_compute; auto]. Qed.
(** C27: erase(v[0]) of [1;2;1] compares with a changing value. *)
Theorem C27_own_value_refuted : exists s ss, vreach KTriv 8 true s ss /\
  vapply (VOn 0 (UEraseVal (Elem 0))) ss = Some ([Some [2]], 2) /\
  then_ (vstep KTriv 8 true plenty s (VOn 0 (UEraseVal (Elem 0)))) (contents 0) = Ok ([2; 1], Done 1).
Proof. apply (after_reach KTriv 8 true plenty [VNewRange [1; 2; 1]]); [exact plenty_sane|]. split; [allowed_tac|vm_compute; auto]. Qed.

(** C26: with an element of the vector as argument. *)
Theorem C26_insert_refuted : exists s ss, vreach KMove 8 true s ss /\
  vapply (VOn 0 (UInsert true 0 (Elem 1))) ss = Some ([Some [2; 1; 2; 3]], 0) /\
  then_ (vstep KMove 8 true plenty s (VOn 0 (UInsert true 0 (Elem 1)))) (contents 0) = Ok ([1; 1; 2; 3], Done 0) /\
  then_ (vstep KMove 8 true plenty s (VOn 0 (UEmplace true 0 (Elem 1)))) (contents 0) = Ok ([1; 1; 2; 3], Done 0) /\
  then_ (vstep KMove 8 true plenty s (VOn 0 (UInsertN true 1 1 (Elem 2)))) (contents 0) = Ok ([1; 2; 2; 3], Done 1).
Proof. apply (after_reach KMove 8 true plenty [VNewRange [1; 2; 3]; VOn 0 (UReserve 8)]); [exact plenty_sane|]. split; [allowed_tac|vm_compute; auto 10]. Qed.
(** If the vector is full the reference dangles. *)
Theorem C26_full_refuted : exists s ss, vreach KMove 8 true s ss /\
  vstep KMove 8 true plenty s (VOn 0 (UInsert true 0 (Elem 1))) = Undef /\
  vstep KMove 8 true plenty s (VOn 0 (UEmplace true 0 (Elem 1))) = Undef /\
  vstep KMove 8 true plenty s (VOn 0 (UInsertN true 0 2 (Elem 1))) = Undef /\
  vstep KMove 8 true plenty s (VOn 0 (UResizeVal 20 (Elem 1))) = Undef /\
  vstep KMove 8 true plenty s (VOn 0 (UAssignN 20 (Elem 1))) = Undef /\
  vstep KMove 8 true plenty s (VOn 0 (UAssignN 2 (Elem 1))) = Undef.
Proof. apply (after_reach KMove 8 true plenty eight); [exact plenty_sane|]. split; [allowed_tac|vm_compute; auto 10]. Qed.

(** C23: growing abandons moved-from objects; without a move constructor, the originals. *)
Theorem C23_moved_from_refuted : exists s ss, vreach KMove 8 true s ss /\ ss = [None] /\
  n_con (vacct s) = 17 /\ n_des (vacct s) = 9 /\ n_gone (vacct s) = 8.
Proof. apply (after_reach KMove 8 true plenty (eight ++ [VOn 0 (UPush true (Val 9)); VDestroy 0])); [exact plenty_sane|]. split; [allowed_tac|vm_compute; auto]. Qed.
Theorem C23_copied_refuted : exists s ss, vreach KCopyMove 8 true s ss /\ ss = [None] /\
  n_con (vacct s) = 17 /\ n_des (vacct s) = 9 /\ n_lost (vacct s) = 8.
Proof. apply (after_reach KCopyMove 8 true plenty (eight ++ [VOn 0 (UPush true (Val 9)); VDestroy 0])); [exact plenty_sane|]. split; [allowed_tac|vm_compute; auto]. Qed.

(** C21, C22: relocatable owners: push_back, insert assign to raw memory, copies duplicate ownership. *)
Theorem C22_relocatable_refuted : exists s ss, vreach KReloc 8 true s ss /\
  vstep KReloc 8 true plenty s (VOn 0 (UPush true (Val 1))) = Undef /\
  vstep KReloc 8 true plenty s (VOn 0 (UInsert true 0 (Val 1))) = Undef /\
  vstep KReloc 8 true plenty s (VCopy 0) = Undef.
Proof. apply (after_reach KReloc 8 true plenty [VNewFill 2 5; VOn 0 (UReserve 9)]); [exact plenty_sane|]. split; [allowed_tac|vm_compute; auto]. Qed.

(** C22: a failing malloc: in push_back the vector is left pointing nowhere and
    its elements leak; in reserve of an empty vector it goes unnoticed. *)
Theorem C22_push_failure_refuted : exists s ss, vreach KMove 8 true s ss /\
  match vstep KMove 8 true nothing s (VOn 0 (UPush true (Val 9))) with
  | Ok (s1, Threw) => n_lost (vacct s1) = 8 /\ contents 0 s1 = Undef /\ vstep KMove 8 true plenty s1 (VDestroy 0) = Undef
  | _ => False
  end.
Proof. apply (after_reach KMove 8 true plenty eight); [exact plenty_sane|]. split; [allowed_tac|vm_compute; auto]. Qed.
Theorem C22_reserve_failure_refuted : exists s ss, vreach KTriv 8 true s ss /\
  match vstep KTriv 8 true nothing s (VOn 0 (UReserve 5)) with
  | Ok (s1, Done _) => capacity_of 0 s1 = Ok 5 /\ vstep KTriv 8 true nothing s1 (VOn 0 (UPush true (Val 1))) = Undef
  | _ => False
  end.
Proof. apply (after_reach KTriv 8 true plenty [VNew]); [exact plenty_sane|]. split; [allowed_tac|vm_compute; auto]. Qed.
(** C22, C28: reserve(2^61 + 1) of 8-byte elements gets one element. *)
Theorem C28_reserve_overflow_refuted : exists s ss, vreach KTriv 8 true s ss /\
  match vstep KTriv 8 true plenty s (VOn 0 (UReserve 2305843009213693953)) with
  | Ok (s1, Done _) => capacity_of 0 s1 = Ok 2305843009213693953 /\
      match vstep KTriv 8 true plenty s1 (VOn 0 (UEmplaceBack true (Val 1))) with
      | Ok (s2, Done _) => vstep KTriv 8 true plenty s2 (VOn 0 (UEmplaceBack true (Val 2))) = Undef
      | _ => False
      end
  | _ => False
  end.
Proof. apply (after_reach KTriv 8 true plenty [VNew]); [exact plenty_sane|]. split; [allowed_tac|vm_compute; auto]. Qed.
(** C22: insert(pos, count, x) with size() + count past 2^64. *)
Theorem C22_insert_overflow_refuted : exists s ss, vreach KTriv 8 false s ss /\
  vstep KTriv 8 false plenty s (VOn 0 (UInsertN true 0 18446744073709551615 (Val 1))) = Undef.
Proof. apply (after_reach KTriv 8 false plenty eight); [exact plenty_sane|]. split; [allowed_tac|vm_compute; auto]. Qed.
(** C22: pop_back of an empty vector is not checked. *)
Theorem C22_pop_empty_refuted : exists s ss, vreach KTriv 8 true s ss /\ vstep KTriv 8 true plenty s (VOn 0 UPop) = Undef.
Proof. apply (after_reach KTriv 8 true plenty [VNew]); [exact plenty_sane|]. split; [allowed_tac|vm_compute; auto]. Qed.

(** C24: the growth factor below the initial capacity, and elements above 128 KiB. *)
Theorem C24_small_refuted : exists cap, 0 < cap /\ 3 * cap > 2 * next_capacity 8 cap.
Proof. exists 7. vm_compute. auto. Qed.
Theorem C24_large_elements_refuted : next_capacity 131073 0 = 0 /\
  (exists s, vstep KTriv 131073 false plenty s (VOn 0 (UPush true (Val 1))) = Undef /\ vs s = [Some (Vec None 0 0)]).
Proof. split; [reflexivity|]. exists {| vs := [Some (Vec None 0 0)]; vacct := no_acct |}. vm_compute. auto. Qed.

(** C60: at() with assertions on gives an element or stops the program, never anything else. *)
Theorem C60_vector_at : forall k sz, 0 < sz <= 131072 -> forall s ss i l v j, vreach k sz true s ss -> nth_error ss i = Some (Some l) -> nth_error (vs s) i = Some (Some v) ->
  vat true v j = match at_ l j with Some x => Ok x | None => AssertFail end.
Proof.
  intros k sz SZ s ss i l v j H E1 E2. pose proof (C21_sequence_partial k sz true SZ s ss i H) as S. rewrite E1 in S. destruct S as (w & E & S). rewrite E2 in E. injection E as <-.
  destruct S as (_ & S2 & _ & _ & S5 & _). destruct (at_ l j) as [x|] eqn:A; [apply S5, A|]. destruct v as [b size cap|]; [|discriminate]. injection S2 as S2. unfold vat.
  assert (N : (0 <=? j) && (j <? size) = false).
  { unfold at_ in A. destruct (Z.ltb_spec j 0); [destruct (Z.leb_spec 0 j); [lia|reflexivity]|]. apply nth_error_None in A. apply andb_false_iff. right. apply Z.ltb_ge. unfold len in S2. lia. }
  unfold assert. rewrite N. reflexivity.
Qed.
Example C60_vector_ex : after KCopy 8 true plenty eight (fun s _ => match vs s with [Some v] => vat true v 7 = Ok 8 /\ vat true v 8 = AssertFail | _ => False end).
Proof. split; [allowed_tac|vm_compute; auto]. Qed.
(** C60: release builds do not check: at(size()) refers to memory without an element. *)
Theorem C60_vector_at_release_refuted : exists s ss, vreach KCopy 8 false s ss /\ match vs s with [Some v] => vsize v = Ok 8 /\ vat false v 8 = Undef | _ => False end.
Proof. apply (after_reach KCopy 8 false plenty eight); [exact plenty_sane|]. split; [allowed_tac|vm_compute; auto]. Qed.
Print Assumptions C60_vector_at.
Print Assumptions C60_vector_at_release_refuted.
(** Assigning to elements, also from another element. *)
Example C21_assign_elements : after KMove 16 true plenty [VNewRange [7; 8; 9]; VOn 0%nat (USet 1 (Elem 2)); VOn 0%nat (USet 2 (Val 5))]
  (fun s ss => ss = [Some [7; 9; 5]] /\ match vs s with [Some v] => viterate v = Ok [7; 9; 5] | _ => False end).
Proof. split; [allowed_tac|]. vm_compute. repeat split. Qed.

Print Assumptions C21_sequence_partial.
Print Assumptions C21_results_partial.
Print Assumptions C22_never_faults_partial.
Print Assumptions C22_bounds.
Print Assumptions C23_conservation.
Print Assumptions C23_copy_only.
Print Assumptions C23_movable_partial.
Print Assumptions C24_next_capacity_partial.
Print Assumptions C24_amortised_partial.
Print Assumptions C25_push_own_element.
Print Assumptions C26_outside_arguments_partial.
Print Assumptions C27_erase_partial.
Print Assumptions C28_reserve_partial.
Print Assumptions C28_shrink.
Print Assumptions C28_in_place.
Print Assumptions C29_independent.
Print Assumptions C29_construct.
Print Assumptions C29_assign.
Print Assumptions C30_assign_partial.
Print Assumptions C31_fill_partial.
Print Assumptions C31_write_buffer_partial.
Print Assumptions C32_equal.
Print Assumptions C32_order.
Print Assumptions C59_left.
Print Assumptions C59_right.
Print Assumptions C32_total_order.
Print Assumptions C30_empty_range_refuted.
Print Assumptions C30_zero_refuted.
Print Assumptions C31_write_buffer_refuted.
Print Assumptions C31_write_buffer_debug_refuted.
Print Assumptions C27_range_result_refuted.
Print Assumptions C27_own_value_refuted.
Print Assumptions C26_insert_refuted.
Print Assumptions C26_full_refuted.
Print Assumptions C23_moved_from_refuted.
Print Assumptions C23_copied_refuted.
Print Assumptions C22_relocatable_refuted.
Print Assumptions C22_push_failure_refuted.
Print Assumptions C22_reserve_failure_refuted.
Print Assumptions C28_reserve_overflow_refuted.
Print Assumptions C22_insert_overflow_refuted.
Print Assumptions C22_pop_empty_refuted.
Print Assumptions C24_small_refuted.
Print Assumptions C24_large_elements_refuted.
