(** Property C44: threads that copy, change and destroy their own strings while
    these share buffers.

    [grun atomic (start l ns) schedule]: one string [l] has been copied so that
    thread [k] has [nth k ns] of the copies; the schedule says which thread takes
    the next step, a step being one access to a count or to the characters.  [Ok]
    means that nothing touched a freed buffer and nothing was freed twice. *)
Require Import ZArith List Bool Lia Arith.
From Verif Require Import Base StrConcModel StrConcSpec StrConcProofs.
Import ListNotations.
Open Scope Z_scope.

(** The string a thread is about to write to, if any. *)
Definition about_to_write (t : thread) : option nat :=
  match at_ t with
  | Writing i _ => obj t i
  | Checked i n _ => if n <=? 1 then obj t i else None
  | _ => None
  end.
Definition idle (t : thread) : Prop := at_ t = Idle.
Definition refers (st : state) (k i b : nat) : Prop :=
  exists t, nth_error (threads st) k = Some t /\ nth_error (objs t) i = Some (Some b).

Section Atomic.
Variables (l : list Z) (ns : list nat) (schedule : list (nat * op)).
Hypothesis some : (0 < total ns)%nat.

(** C44, for counting by atomic operations (the code counts without: see below):
    under every schedule no step touches a freed buffer or frees one again. *)
Theorem C44_never_freed_early_partial : exists st, grun true (start l ns) schedule = Ok st.
Proof. destruct (grun_inv _ schedule _ (start_inv l ns some)) as (st & H & _). eauto. Qed.

Variable st : state.
Hypothesis ran : grun true (start l ns) schedule = Ok st.
Lemma st_inv : Inv (map (repeat (Some l)) ns) st.
Proof. destruct (grun_inv _ schedule _ (start_inv l ns some)) as (st' & H & I). congruence. Qed.

(** C44: a buffer that a string refers to has not been freed and its characters
    are those that the operations of the thread itself, and no other, give. *)
Theorem C44_values_partial : forall k n t i, nth_error ns k = Some n -> nth_error (threads st) k = Some t ->
  match obj t i with
  | Some b => exists u, nth_error (bufs st) b = Some u /\ freed u = 0%nat /\ value_at (plays (repeat (Some l) n) (done t)) i = Some (chars u)
  | None => value_at (plays (repeat (Some l) n) (done t)) i = None
  end.
Proof.
  intros k n t i N T. pose proof st_inv as I. destruct (Ivals _ _ I _ _ T) as (vs & E & V). rewrite nth_error_map, N in E. injection E as <-.
  unfold values_ok in V. rewrite <- V, value_at_map. destruct (obj t i) as [b|] eqn:O; auto.
  destruct st as [bs ts]. destruct (used_buf _ _ _ b I) as (u & E & _ & F & _).
  - pose proof (obj_uses' _ _ _ O). pose proof (sum_nth _ (uses b) _ _ _ T). cbn in *. lia.
  - exists u. cbn. rewrite E. auto.
Qed.
(** C44: a thread about to write to a buffer has the only string referring to it. *)
Theorem C44_sole_writer_partial : forall k t b, nth_error (threads st) k = Some t -> about_to_write t = Some b ->
  exists i, refers st k i b /\ forall k' i', refers st k' i' b -> k' = k /\ i' = i.
Proof.
  intros k t b T W. pose proof (Ipc _ _ st_inv _ _ T) as P. unfold about_to_write, pc_ok in *.
  assert (S : exists i, obj t i = Some b /\ sum (uses b) (threads st) = 1%nat).
  { destruct (at_ t) as [| | | | |i n f|i f]; try discriminate.
    - destruct (Z.leb_spec n 1); [|discriminate]. destruct P as (_ & P). destruct (P H) as (c & O & S). exists i. replace c with b in * by congruence. auto.
    - destruct P as (c & O & S). exists i. replace c with b in * by congruence. auto. }
  destruct S as (i & O & S). exists i. pose proof (obj_nth _ _ _ O) as ON. split; [exists t; auto|].
  assert (A : forall k' t' i', nth_error (threads st) k' = Some t' -> nth_error (objs t') i' = Some (Some b) -> (1 <= uses b t')%nat).
  { intros k' t' i' _ X. pose proof (sum_nth _ (is_ b) _ _ _ X) as Y. cbn in Y. rewrite Nat.eqb_refl in Y. unfold uses. lia. }
  intros k' i' (t' & T' & O'). destruct (Nat.eq_dec k' k) as [->|N].
  - split; auto. replace t' with t in * by congruence. destruct (Nat.eq_dec i' i); auto. exfalso.
    pose proof (sum_two _ (is_ b) _ _ _ _ _ O' ON n) as X. cbn in X. rewrite Nat.eqb_refl in X. pose proof (sum_nth _ (uses b) _ _ _ T) as Y. unfold uses in Y at 1. lia.
  - exfalso. pose proof (sum_two _ (uses b) _ _ _ _ _ T' T N). pose proof (A _ _ _ T' O'). pose proof (A _ _ _ T ON). lia.
Qed.
(** C44: no buffer is freed twice, and when all threads are idle exactly those
    buffers are freed that no string refers to. *)
Theorem C44_freed_once_partial : forall b u, nth_error (bufs st) b = Some u ->
  (freed u <= 1)%nat /\
  (Forall idle (threads st) -> (freed u = 1%nat <-> forall k i, ~ refers st k i b)).
Proof.
  intros b u E. pose proof (Ibufs _ _ st_inv _ _ E) as B. split; [destruct B as [(-> & _)|(-> & _)]; auto|].
  intros A. rewrite Forall_forall in A.
  assert (U : sum (uses b) (threads st) = 0%nat <-> forall k i, ~ refers st k i b).
  { split.
    - intros Z k i (t & T & O). pose proof (sum_nth _ (uses b) _ _ _ T) as X. pose proof (sum_nth _ (is_ b) _ _ _ O) as Y. cbn in Y. rewrite Nat.eqb_refl in Y. unfold uses in X at 1. lia.
    - intros N. destruct st as [bs ts]. cbn [threads] in *. unfold refers in N. cbn [threads] in N. clear - A N. induction ts as [|t ts IH]; auto. cbn [sum].
      rewrite IH; [| |intros k i (t' & T & O); apply (N (S k) i); exists t'; auto].
      + unfold uses. rewrite (A t (or_introl eq_refl)). cbn [extra is_]. assert (Q : forall i, nth_error (objs t) i <> Some (Some b)) by (intros i X; apply (N 0%nat i); exists t; auto).
        clear - Q. induction (objs t) as [|o os IH]; auto. cbn [sum]. rewrite <- plus_n_O in *. rewrite Nat.add_0_l in *. rewrite IH by (intros i; apply (Q (S i))).
        specialize (Q 0%nat). cbn in Q. destruct o as [c|]; auto. cbn. destruct (Nat.eqb_spec c b); [subst; congruence|auto].
      + intros t' X. apply A. right. exact X. }
  rewrite <- U. destruct B as [(F & C & Z)|(F & Z & _)]; rewrite F; split; intros X; try lia.
  exfalso. rewrite X in C. rewrite C in Z. cbn in Z. 
  assert (sum (frees b) (threads st) = 0%nat); [|lia]. clear - A. induction (threads st) as [|t ts IH]; auto. cbn [sum]. rewrite IH; [|intros; apply A; right; auto].
  unfold frees. rewrite (A t (or_introl eq_refl)). reflexivity.
Qed.
End Atomic.

(** C44 is false of the code: refCount_++ is a load and a store.  Two threads
    with one string each copy it at the same time and one count is lost; when
    three of the four strings are gone the buffer is freed and the fourth reads
    freed memory. *)
Definition lost_update : list (nat * op) :=
  [(0, Copy 0); (1, Copy 0); (0, Copy 0); (1, Copy 0);
   (0, Destroy 0); (0, Destroy 0); (0, Destroy 0);
   (0, Destroy 1); (0, Destroy 1); (0, Destroy 1);
   (1, Destroy 0); (1, Destroy 0); (1, Destroy 0); (1, Destroy 0);
   (1, Read 1)]%nat.
Theorem C44_counting_refuted : exists l ns schedule, (0 < total ns)%nat /\ grun false (start l ns) schedule = Undef.
Proof. exists [1; 2; 3], [1; 1]%nat, lost_update. split; [cbn; lia|reflexivity]. Qed.
(** The same with two threads that let go at the same time: nobody frees. *)
Theorem C44_freed_once_refuted : exists l ns schedule st u, (0 < total ns)%nat /\ grun false (start l ns) schedule = Ok st /\
  Forall idle (threads st) /\ (forall k i b, ~ refers st k i b) /\ nth_error (bufs st) 0 = Some u /\ freed u = 0%nat.
Proof.
  exists [1], [1; 1]%nat, [(0, Destroy 0); (1, Destroy 0); (0, Destroy 0); (1, Destroy 0); (0, Destroy 0); (1, Destroy 0)]%nat.
  eexists _, _. split; [cbn; lia|]. split; [reflexivity|]. split; [repeat constructor|]. split; [|split; reflexivity].
  intros k i b (t & T & O). destruct k as [|[|k]]; cbn in T; [| |destruct k; discriminate]; injection T as <-; destruct i as [|[|i]]; discriminate.
Qed.

(** Examples: two threads race to change what they share; each gets its own
    value, and the shared buffer is freed once by whoever drops it last. *)
Definition up (l : list Z) : list Z := map (fun x => x + 1) l.
Definition app9 (l : list Z) : list Z := l ++ [9].
Definition race : list (nat * op) :=
  [(0, Mutate 0 up); (1, Mutate 0 app9); (1, Read 0); (0, Read 0); (0, Read 0); (1, Read 0); (1, Read 0); (0, Read 0); (1, Read 0)]%nat.
Example race_ends : exists st, grun true (start [1; 2] [1; 1]%nat) race = Ok st /\
  map (fun u => (count u, chars u, freed u)) (bufs st) = [(0, [1; 2], 1%nat); (1, [1; 2; 9], 0%nat); (1, [2; 3], 0%nat)] /\
  map objs (threads st) = [[Some 2]; [Some 1]]%nat /\ Forall idle (threads st).
Proof. eexists. split; [reflexivity|]. repeat split. repeat constructor. Qed.
Example race_writer : exists st t, grun true (start [1; 2] [1; 1]%nat) (firstn 5 race) = Ok st /\
  nth_error (threads st) 0 = Some t /\ about_to_write t = Some 2%nat.
Proof. eexists _, _. split; [reflexivity|]. split; reflexivity. Qed.

Print Assumptions C44_never_freed_early_partial.
Print Assumptions C44_values_partial.
Print Assumptions C44_sole_writer_partial.
Print Assumptions C44_freed_once_partial.
Print Assumptions C44_counting_refuted.
Print Assumptions C44_freed_once_refuted.
