(** Property C85: stdb_vector's calls that take a pair of iterators.

    [rstep] (VecRangeModel): constructor, assign and insert with the memory [m]
    the iterators refer to; [yields m it l] (VecRangeSpec): *first, *(first+1),
    ... converted to T are the values [l].

    The full statement -- the elements become what the iterators yield, for every
    iterator -- is false: the code copies a block of memory for every random
    access iterator if T is relocatable. *)
Require Import ZArith List Bool Lia.
From Verif Require Import Base BaseProofs VecSpec VecModel VecStatements VecCases VecProofs VecProofs4 PropVector
  VecRangeModel VecRangeSpec VecRangeProofs VecRangeProofs2.
Import ListNotations.
Open Scope Z_scope.

(** C85: for contiguous objects of type T, and for every iterator if T is not
    relocatable or the iterator not random access, a range call does to the
    sequences what the sequence operation does with the values yielded. *)
Theorem C85_range_calls_partial : forall k sz dbg s ss mal m o l ss' r', size_ok sz -> vreach k sz dbg s ss -> malloc_sane mal ->
  is_relocatable k && it_pointer (range_of o) = false \/ bytes_only m /\ of_same_type sz (range_of o) /\ contiguous sz (range_of o) ->
  yields m (range_of o) l -> allowed_v k sz dbg mal s (with_values o l) -> vapply (with_values o l) ss = Some (ss', r') ->
  exists s' out, rstep k sz dbg mal m s o = Ok (s', out) /\
    match out with
    | Done r => r = r' /\ vreach k sz dbg s' ss'
    | Threw => (exists n, mal n = false) /\ (unbroken s' -> vreach k sz dbg s' (vthrow (with_values o l) ss))
    end.
Proof.
  intros k sz dbg s ss mal m o l ss' r' SZ H MS HOW Y AL VA.
  rewrite (step_copies k sz dbg mal m o l s).
  - destruct (C22_never_faults_partial k sz dbg SZ s ss mal (with_values o l) ss' r' H MS AL VA) as (s' & out & E & G).
    exists s', out. split; [exact E|]. destruct out as [r|]; [|exact G]. split; [|exact G].
    apply (C21_results_partial k sz dbg SZ s ss mal (with_values o l) s' r ss' r' H MS AL); [|exact VA|exact E].
    intros i p q. destruct o; discriminate.
  - exact (proj1 Y).
  - intros N. destruct HOW as [L|(B & S & C)]; [now apply copies_loop|]. destruct SZ as [SZ _]. apply copies_block; auto.
    + rewrite (C (it_count (range_of o))) by lia. nia.
    + intros i Hi. apply C. lia.
Qed.
Print Assumptions C85_range_calls_partial.

(** C85: in particular the new vector of a range constructor shows these values. *)
Theorem C85_constructed_partial : forall k sz dbg s ss mal m it l s' r, size_ok sz -> vreach k sz dbg s ss -> malloc_sane mal -> k <> KReloc ->
  is_relocatable k && it_pointer it = false \/ bytes_only m /\ of_same_type sz it /\ contiguous sz it ->
  yields m it l -> it_count it * sz < M64 -> rstep k sz dbg mal m s (RNew it) = Ok (s', Done r) ->
  exists v, nth_error (vs s') (length ss) = Some (Some v) /\ shows dbg v l.
Proof.
  intros k sz dbg s ss mal m it l s' r SZ H MS KR HOW Y FIT E.
  destruct (C85_range_calls_partial k sz dbg s ss mal m (RNew it) l (ss ++ [Some l]) 0 SZ H MS HOW Y) as (s2 & out & E2 & G).
  - split; [exact KR|]. unfold fits. rewrite (proj1 Y). split; [|exact FIT]. rewrite <- (proj1 Y). apply len_nonneg.
  - reflexivity.
  - rewrite E in E2. injection E2 as <- <-. destruct G as [_ G].
    pose proof (C21_sequence_partial k sz dbg SZ s' _ (length ss) G) as Q.
    rewrite nth_error_app2, Nat.sub_diag in Q by reflexivity. exact Q.
Qed.
Print Assumptions C85_constructed_partial.

(** C85: random access iterators over objects of type T, T trivially copyable:
    the range constructor is right for every memory if and only if the objects
    are one after another and the address of the first is below that of the end. *)
Theorem C85_exactly : forall dbg mal sz it, size_ok sz -> it_pointer it = true -> 0 < it_count it -> it_count it * sz < M64 ->
  mal (it_count it * sz) = true -> of_same_type sz it ->
  (forall m l, all_bytes m -> yields m it l ->
     exists s', rstep KTriv sz dbg mal m vinit (RNew it) = Ok (s', Done 0) /\ contents 0 s' = Ok l) <->
  it_at it 0 < it_at it (it_count it) /\ forall i, 0 <= i < it_count it -> it_at it i = it_at it 0 + i * sz.
Proof.
  intros dbg mal sz it [SZ _] P N F M S. apply exactly; auto.
Qed.
Print Assumptions C85_exactly.

(** C85: objects of another type of the same size, one after another: right for
    every memory if and only if the conversion to T keeps the bytes. *)
Theorem C85_conversion : forall dbg mal sz it, size_ok sz -> it_pointer it = true -> 0 < it_count it -> it_count it * sz < M64 ->
  mal (it_count it * sz) = true -> it_size it = sz -> contiguous sz it ->
  ((forall m l, all_bytes m -> yields m it l ->
      exists s', rstep KTriv sz dbg mal m vinit (RNew it) = Ok (s', Done 0) /\ contents 0 s' = Ok l) <->
   forall x, 0 <= x < 256 ^ sz -> it_conv it x = x).
Proof.
  intros dbg mal sz it [SZ _] P N F M S C. apply conversion; auto.
  - rewrite (C (it_count it)) by lia. nia.
  - intros i Hi. apply C. lia.
Qed.
Print Assumptions C85_conversion.

(** C85: if the address of the first object is not below that of the end, the
    vector has the elements and none of them a value. *)
Theorem C85_nothing_copied : forall dbg mal sz it m, size_ok sz -> it_pointer it = true -> 0 < it_count it -> it_count it * sz < M64 ->
  mal (it_count it * sz) = true -> it_at it (it_count it) <= it_at it 0 ->
  exists s', rstep KTriv sz dbg mal m vinit (RNew it) = Ok (s', Done 0) /\ size_of 0 s' = Ok (it_count it) /\ contents 0 s' = Undef.
Proof.
  intros dbg mal sz it m [SZ _] P N F M GE. apply new_nothing; auto.
Qed.
Print Assumptions C85_nothing_copied.

(** Memory for the examples: the bytes listed from address [p] on. *)
Definition memory (p : Z) (l : list Z) : bytes := fun q => if q <? p then None else nth_error l (Z.to_nat (q - p)).
Definition four : bytes := memory 100 [1; 0; 2; 0; 3; 0; 4; 0].
(** uint16_t* over four of them; std::reverse_iterator over the same *)
Definition pointers : iters := {| it_pointer := true; it_size := 2; it_conv := fun x => x; it_at := fun i => 100 + 2 * i; it_count := 4 |}.
Definition backwards : iters := {| it_pointer := true; it_size := 2; it_conv := fun x => x; it_at := fun i => 106 - 2 * i; it_count := 4 |}.
(** std::deque: two elements in one block, two in another *)
Definition deque : iters :=
  {| it_pointer := true; it_size := 2; it_conv := fun x => x; it_at := fun i => if i <? 2 then 100 + 2 * i else 200 + 2 * (i - 2); it_count := 4 |}.
Definition blocks : bytes := fun q => if q <? 150 then memory 100 [1; 0; 2; 0] q else memory 200 [3; 0; 4; 0] q.
(** uint16_t* for a vector of uint32_t; int16_t* for a vector of uint16_t of the absolute values *)
Definition narrow : iters := {| it_pointer := true; it_size := 2; it_conv := fun x => x; it_at := fun i => 100 + 2 * i; it_count := 4 |}.

(** C85: all of a reversed range's elements are without a value. *)
Theorem C85_reverse_refuted : exists it m l, yields m it l /\ bytes_only m /\ of_same_type 2 it /\ l = [4; 3; 2; 1] /\
  then_ (rstep KTriv 2 true plenty m vinit (RNew it)) (size_of 0) = Ok (4, Done 0) /\
  then_ (rstep KTriv 2 true plenty m vinit (RNew it)) (contents 0) = Undef.
Proof.
  exists backwards, four, [4; 3; 2; 1]. split; [apply walk_yields; [discriminate|vm_compute; reflexivity]|].
  split. { intros p x. unfold four, memory. destruct (p <? 100); [discriminate|]. intros E. apply nth_error_In in E. cbn in E. unfold is_byte. lia. }
  split; [split; [reflexivity|auto]|]. repeat split; vm_compute; reflexivity.
Qed.
Print Assumptions C85_reverse_refuted.

(** C85: a std::deque's elements beyond its first block are not reached: the
    memory behind that block is read, whatever is there. *)
Theorem C85_deque_refuted : exists it m l, yields m it l /\ bytes_only m /\ of_same_type 2 it /\ l = [1; 2; 3; 4] /\
  rstep KTriv 2 true plenty m vinit (RNew it) = Undef /\
  (forall rest, (forall q, m q <> None -> rest q = m q) -> (forall q, 104 <= q < 108 -> rest q = Some 0) ->
     yields rest it l /\ then_ (rstep KTriv 2 true plenty rest vinit (RNew it)) (contents 0) = Ok ([1; 2; 0; 0], Done 0)).
Proof.
  exists deque, blocks, [1; 2; 3; 4]. split; [apply walk_yields; [discriminate|vm_compute; reflexivity]|].
  split.
  { intros p x. unfold blocks, memory. destruct (p <? 150); [destruct (p <? 100)|destruct (p <? 200)]; try discriminate;
    intros E; apply nth_error_In in E; cbn in E; unfold is_byte; lia. }
  split; [split; [reflexivity|auto]|]. split; [reflexivity|]. split; [vm_compute; reflexivity|].
  intros rest K Z0.
  assert (R : rest 100 = Some 1 /\ rest 101 = Some 0 /\ rest 102 = Some 2 /\ rest 103 = Some 0 /\
              rest 200 = Some 3 /\ rest 201 = Some 0 /\ rest 202 = Some 4 /\ rest 203 = Some 0).
  { repeat split; (rewrite K; [reflexivity|vm_compute; discriminate]). }
  destruct R as (R0 & R1 & R2 & R3 & R4 & R5 & R6 & R7).
  pose proof (Z0 104 ltac:(lia)) as Z4. pose proof (Z0 105 ltac:(lia)) as Z5. pose proof (Z0 106 ltac:(lia)) as Z6. pose proof (Z0 107 ltac:(lia)) as Z7.
  split.
  - apply walk_yields; [discriminate|]. cbv. rewrite R0, R1, R2, R3, R4, R5, R6, R7. reflexivity.
  - unfold rstep, copy_iters. cbn [it_pointer it_count it_at deque is_relocatable andb].
    replace (block_copy 2 rest _ _) with (Ok [1; 2; 0; 0]); [vm_compute; reflexivity|].
    cbv. rewrite R0, R1, R2, R3, Z4, Z5, Z6, Z7. reflexivity.
Qed.
Print Assumptions C85_deque_refuted.

(** C85: uint16_t objects are not widened to uint32_t: they are taken two at a
    time, and memory behind the last one is read. *)
Theorem C85_other_type_refuted : exists it m l, yields m it l /\ bytes_only m /\ contiguous 2 it /\ l = [1; 2; 3; 4] /\
  rstep KTriv 4 true plenty m vinit (RNew it) = Undef /\
  then_ (rstep KTriv 4 true plenty m vinit (RNew {| it_pointer := true; it_size := it_size it; it_conv := it_conv it; it_at := it_at it; it_count := 2 |}))
    (contents 0) = Ok ([131073; 262147], Done 0).
Proof.
  exists narrow, four, [1; 2; 3; 4]. split; [apply walk_yields; [discriminate|vm_compute; reflexivity]|].
  split. { intros p x. unfold four, memory. destruct (p <? 100); [discriminate|]. intros E. apply nth_error_In in E. cbn in E. unfold is_byte. lia. }
  split; [intros i Hi; unfold narrow, pointers, it_at; lia|]. repeat split; vm_compute; reflexivity.
Qed.
Print Assumptions C85_other_type_refuted.

(** Examples: what C85_range_calls_partial and C85_exactly are about. *)
Example C85_example_pointers : yields four pointers [1; 2; 3; 4] /\ bytes_only four /\ of_same_type 2 pointers /\ contiguous 2 pointers /\
  then_ (rstep KTriv 2 true plenty four vinit (RNew pointers)) (contents 0) = Ok ([1; 2; 3; 4], Done 0) /\
  after KTriv 2 true plenty [VNew; VOn 0 (UPush true (Val 7)); VOn 0 (UPush true (Val 8))] (fun s ss =>
    then_ (rstep KTriv 2 true plenty four s (RInsert 0 true 1 pointers)) (contents 0) = Ok ([7; 1; 2; 3; 4; 8], Done 1) /\
    then_ (rstep KTriv 2 true plenty four s (RAssign 0 pointers)) (contents 0) = Ok ([1; 2; 3; 4], Done 0)).
Proof.
  split; [apply walk_yields; [discriminate|vm_compute; reflexivity]|].
  split. { intros p x. unfold four, memory. destruct (p <? 100); [discriminate|]. intros E. apply nth_error_In in E. cbn in E. unfold is_byte. lia. }
  split; [split; [reflexivity|auto]|]. split; [intros i Hi; unfold narrow, pointers, it_at; lia|]. split; [vm_compute; reflexivity|].
  split; [cbn; repeat (split; auto)|vm_compute; repeat split; reflexivity].
Qed.
(** The same iterators with elements that are not relocatable: right for every one of them. *)
Example C85_example_loop :
  then_ (rstep KMove 2 true plenty four vinit (RNew backwards)) (contents 0) = Ok ([4; 3; 2; 1], Done 0) /\
  then_ (rstep KMove 2 true plenty blocks vinit (RNew deque)) (contents 0) = Ok ([1; 2; 3; 4], Done 0) /\
  then_ (rstep KMove 4 true plenty four vinit (RNew narrow)) (contents 0) = Ok ([1; 2; 3; 4], Done 0).
Proof. repeat split; vm_compute; reflexivity. Qed.
(** and C85_conversion: int16_t to uint16_t keeps the bytes, taking the absolute value does not *)
Definition absolute : iters :=
  {| it_pointer := true; it_size := 2; it_conv := fun x => if x <? 32768 then x else 65536 - x; it_at := fun i => 100 + 2 * i; it_count := 2 |}.
Example C85_example_conversion : let m := memory 100 [255; 255; 5; 0] in
  yields m absolute [1; 5] /\ then_ (rstep KTriv 2 true plenty m vinit (RNew absolute)) (contents 0) = Ok ([65535; 5], Done 0).
Proof. split; [apply walk_yields; [discriminate|vm_compute; reflexivity]|vm_compute; reflexivity]. Qed.
