(** Proofs about StrConcModel: the invariant of reference counts for atomic
    counting. *)
Require Import ZArith List Bool Lia Arith.
From Verif Require Import Base StrConcModel StrConcSpec.
Import ListNotations.
Open Scope Z_scope.

(** ** Lists *)
Lemma set_nth_length : forall A n (x : A) l, length (set_nth n x l) = length l.
Proof. induction n; destruct l; cbn; auto. Qed.
Lemma nth_set_nth : forall A n (x : A) l m, nth_error (set_nth n x l) m =
  if Nat.eqb m n then match nth_error l n with Some _ => Some x | None => None end else nth_error l m.
Proof.
  induction n; destruct l; destruct m; cbn; auto.
  - destruct (Nat.eqb m n); reflexivity.
Qed.
Lemma set_nth_split : forall A n (y x : A) l, nth_error l n = Some y ->
  exists a b, l = a ++ y :: b /\ length a = n /\ set_nth n x l = a ++ x :: b.
Proof.
  induction n; destruct l; cbn; intros H; try discriminate.
  - injection H as ->. exists [], l. auto.
  - destruct (IHn y x l H) as (p & q & -> & <- & ->). exists (a :: p), q. auto.
Qed.
Lemma set_nth_out : forall A n (x : A) l, nth_error l n = None -> set_nth n x l = l.
Proof. induction n; destruct l; cbn; intros; try congruence. f_equal. auto. Qed.
Lemma map_set_nth : forall A B (f : A -> B) n x l, map f (set_nth n x l) = set_nth n (f x) (map f l).
Proof. induction n; destruct l; cbn; intros; auto. f_equal. auto. Qed.

(** ** Counting references *)
Definition is_ (b : nat) (o : option nat) : nat :=
  match o with Some c => if Nat.eqb c b then 1%nat else 0%nat | None => 0%nat end.
Fixpoint sum {A} (f : A -> nat) (l : list A) : nat := match l with [] => 0%nat | x :: t => (f x + sum f t)%nat end.
Lemma sum_app : forall A (f : A -> nat) a b, sum f (a ++ b) = (sum f a + sum f b)%nat.
Proof. induction a; cbn; intros; auto. rewrite IHa. lia. Qed.
Lemma sum_nth : forall A (f : A -> nat) l n x, nth_error l n = Some x -> (f x <= sum f l)%nat.
Proof. induction l; destruct n; cbn; intros; try discriminate. injection H as ->; lia. specialize (IHl _ _ H). lia. Qed.
Lemma sum_set : forall A (f : A -> nat) n y x l, nth_error l n = Some y -> (sum f (set_nth n x l) + f y = sum f l + f x)%nat.
Proof. induction n; destruct l; cbn; intros; try discriminate. injection H as ->; lia. specialize (IHn _ x _ H). lia. Qed.
Lemma sum_two : forall A (f : A -> nat) l n m x y, nth_error l n = Some x -> nth_error l m = Some y -> n <> m -> (f x + f y <= sum f l)%nat.
Proof.
  induction l; destruct n, m; cbn; intros; try discriminate; try congruence.
  - injection H as ->. pose proof (sum_nth _ f _ _ _ H0). lia.
  - injection H0 as ->. pose proof (sum_nth _ f _ _ _ H). lia.
  - assert (n <> m) by congruence. specialize (IHl _ _ _ _ H H0 H2). lia.
Qed.

Definition extra (p : pc) : option nat := match p with Dropping _ (Some (nb, _)) => Some nb | DecStore _ (Some (nb, _)) _ => Some nb | _ => None end.
Definition uses (b : nat) (t : thread) : nat := (is_ b (extra (at_ t)) + sum (is_ b) (objs t))%nat.
Definition frees (b : nat) (t : thread) : nat := match at_ t with Freeing c _ => if Nat.eqb c b then 1%nat else 0%nat | _ => 0%nat end.

(** What a thread needs of the buffers, given who else uses them. *)
Definition value_of (bs : list buf) (o : option nat) : value :=
  match o with Some b => match nth_error bs b with Some u => Some (chars u) | None => None end | None => None end.
Definition sole (ts : list thread) (t : thread) (i : nat) : Prop :=
  exists b, obj t i = Some b /\ sum (uses b) ts = 1%nat.
Definition pc_ok (bs : list buf) (ts : list thread) (t : thread) : Prop :=
  match at_ t with
  | Idle => True
  | IncStore _ _ | DecStore _ _ _ => False
  | Dropping i next => (exists b, obj t i = Some b) /\
      match next with Some (nb, _) => value_of bs (Some nb) = value_of bs (obj t i) /\ sum (uses nb) ts = 1%nat | None => True end
  | Freeing b next => match next with Some (i, _) => sole ts t i | None => True end
  | Checked i n f => (exists b, obj t i = Some b) /\ (n <= 1 -> sole ts t i)
  | Writing i f => sole ts t i
  end.
(** The values of its strings are those of its completed operations. *)
Definition values_ok (bs : list buf) (vs : list value) (t : thread) : Prop :=
  map (value_of bs) (objs t) = plays vs (done t).
Definition buf_ok (ts : list thread) (b : nat) (u : buf) : Prop :=
  (freed u = 0%nat /\ count u = Z.of_nat (sum (uses b) ts) /\ sum (frees b) ts = (if count u =? 0 then 1%nat else 0%nat)) \/
  (freed u = 1%nat /\ sum (uses b) ts = 0%nat /\ sum (frees b) ts = 0%nat).
Record Inv (vss : list (list value)) (st : state) : Prop := {
  Ibufs : forall b u, nth_error (bufs st) b = Some u -> buf_ok (threads st) b u;
  Inone : forall b, nth_error (bufs st) b = None -> sum (uses b) (threads st) = 0%nat /\ sum (frees b) (threads st) = 0%nat;
  Ipc : forall k t, nth_error (threads st) k = Some t -> pc_ok (bufs st) (threads st) t;
  Ivals : forall k t, nth_error (threads st) k = Some t -> exists vs, nth_error vss k = Some vs /\ values_ok (bufs st) vs t
}.

Lemma obj_uses : forall t i b, obj t i = Some b -> (1 <= sum (is_ b) (objs t))%nat.
Proof.
  unfold obj. intros t i b. destruct (nth_error (objs t) i) as [o|] eqn:E; [|discriminate]. intros ->.
  pose proof (sum_nth _ (is_ b) _ _ _ E). cbn in H. rewrite Nat.eqb_refl in H. lia.
Qed.
Lemma obj_uses' : forall t i b, obj t i = Some b -> (1 <= uses b t)%nat.
Proof. intros. apply obj_uses in H. unfold uses. lia. Qed.
Lemma obj_nth : forall t i b, obj t i = Some b -> nth_error (objs t) i = Some (Some b).
Proof. unfold obj. intros t i b. destruct (nth_error (objs t) i); congruence. Qed.

Section Step.
Variables (vss : list (list value)) (bs bs' : list buf) (ts : list thread) (k : nat) (t t' : thread).
Hypothesis I : Inv vss (State bs ts).
Hypothesis T : nth_error ts k = Some t.
Hypothesis F1 : forall b, nth_error bs b <> None -> uses b t = 0%nat -> uses b t' = 0%nat.
Hypothesis F2 : forall b u, nth_error bs b = Some u -> exists u', nth_error bs' b = Some u' /\ (chars u' = chars u \/ sum (uses b) ts = uses b t).
Let ts' := set_nth k t' ts.

Lemma uses_exists : forall j t0 b, nth_error ts j = Some t0 -> (1 <= uses b t0)%nat -> nth_error bs b <> None.
Proof.
  intros j t0 b H U N. destruct (Inone _ _ I b N) as (Z & _). pose proof (sum_nth _ (uses b) _ _ _ H). cbn in Z. lia.
Qed.
Lemma other_value : forall j t0 b, nth_error ts j = Some t0 -> j <> k -> (1 <= uses b t0)%nat -> value_of bs' (Some b) = value_of bs (Some b).
Proof.
  intros j t0 b H N U. pose proof (uses_exists _ _ _ H U) as X. cbn [value_of].
  destruct (nth_error bs b) as [u|] eqn:E; [|congruence]. destruct (F2 _ _ E) as (u' & -> & [C | S]); [congruence|].
  pose proof (sum_two _ (uses b) _ _ _ _ _ H T N). lia.
Qed.
Lemma other_sole : forall j t0 b, nth_error ts j = Some t0 -> j <> k -> (1 <= uses b t0)%nat -> sum (uses b) ts = 1%nat -> sum (uses b) ts' = 1%nat.
Proof.
  intros j t0 b H N U S. pose proof (uses_exists _ _ _ H U) as X.
  pose proof (sum_two _ (uses b) _ _ _ _ _ H T N). pose proof (sum_set _ (uses b) k t t' ts T). pose proof (F1 b X). unfold ts'. lia.
Qed.
Lemma other_sole' : forall j t0 i, nth_error ts j = Some t0 -> j <> k -> sole ts t0 i -> sole ts' t0 i.
Proof.
  intros j t0 i H N (b & O & S). exists b. split; auto. eapply other_sole; eauto. eapply obj_uses'; eauto.
Qed.
Lemma other_pc : forall j t0, nth_error ts j = Some t0 -> j <> k -> pc_ok bs' ts' t0.
Proof.
  intros j t0 H N. pose proof (Ipc _ _ I _ _ H) as P. unfold pc_ok in *. cbn [bufs threads] in P.
  destruct (at_ t0) as [| |i next| |b next|i n f|i f] eqn:A; auto.
  - destruct P as ((b & O) & P). split; [eauto|]. destruct next as [(nb, f)|]; auto. destruct P as (V & S).
    assert (U : (1 <= uses nb t0)%nat) by (unfold uses; rewrite A; cbn; rewrite Nat.eqb_refl; lia).
    split; [|eapply other_sole; eauto].
    rewrite (other_value _ _ _ H N U), V, O. symmetry. eapply other_value; eauto. eapply obj_uses'; eauto.
  - destruct next as [(i, f)|]; auto. eapply other_sole'; eauto.
  - destruct P as (O & P). split; auto. intros L. eapply other_sole'; eauto.
  - eapply other_sole'; eauto.
Qed.
Lemma other_vals : forall j t0 vs, nth_error ts j = Some t0 -> j <> k -> values_ok bs vs t0 -> values_ok bs' vs t0.
Proof.
  unfold values_ok. intros j t0 vs H N <-. apply map_ext_in. intros [b|] X; auto. eapply other_value; eauto.
  apply In_nth_error in X. destruct X as (n & X). unfold uses. pose proof (sum_nth _ (is_ b) _ _ _ X). cbn in H0. rewrite Nat.eqb_refl in H0. lia.
Qed.

Hypothesis G1 : forall b u, nth_error bs' b = Some u -> buf_ok ts' b u.
Hypothesis G2 : forall b, nth_error bs' b = None -> uses b t' = 0%nat /\ frees b t' = 0%nat.
Hypothesis G3 : pc_ok bs' ts' t'.
Hypothesis G4 : forall vs, values_ok bs vs t -> values_ok bs' vs t'.
Lemma step_inv : Inv vss (State bs' ts').
Proof.
  assert (L : forall b, nth_error bs' b = None -> nth_error bs b = None).
  { intros b N. destruct (nth_error bs b) as [u|] eqn:E; auto. destruct (F2 _ _ E) as (u' & E' & _). congruence. }
  constructor; cbn [bufs threads]; auto.
  - intros b N. destruct (G2 b N). destruct (Inone _ _ I b (L b N)). cbn in *.
    pose proof (sum_set _ (uses b) k t t' ts T). pose proof (sum_set _ (frees b) k t t' ts T). unfold ts'. lia.
  - intros j t0. unfold ts'. rewrite nth_set_nth. destruct (Nat.eqb_spec j k) as [->|N].
    + rewrite T. intros H; injection H as <-. exact G3.
    + intros H. eapply other_pc; eauto.
  - intros j t0. unfold ts'. rewrite nth_set_nth. destruct (Nat.eqb_spec j k) as [->|N].
    + rewrite T. intros H; injection H as <-. destruct (Ivals _ _ I _ _ T) as (vs & E & V). exists vs. auto.
    + intros H. destruct (Ivals _ _ I _ _ H) as (vs & E & V). exists vs. split; auto. eapply other_vals; eauto.
Qed.
End Step.

Lemma used_buf : forall vss bs ts b, Inv vss (State bs ts) -> (1 <= sum (uses b) ts)%nat ->
  exists u, nth_error bs b = Some u /\ access bs b = Ok u /\ freed u = 0%nat /\ count u = Z.of_nat (sum (uses b) ts) /\ sum (frees b) ts = 0%nat.
Proof.
  intros vss bs ts b I U. destruct (nth_error bs b) as [u|] eqn:E.
  - exists u. unfold access. rewrite E. destruct (Ibufs _ _ I _ _ E) as [(F & C & P)|(_ & Z & _)]; cbn [threads] in *; [|lia].
    rewrite F. repeat split; auto. destruct (Z.eqb_spec (count u) 0); [lia|exact P].
  - destruct (Inone _ _ I _ E) as (Z & _). cbn in Z. lia.
Qed.

Lemma value_ext : forall bs bs' os, (forall b, In (Some b) os -> value_of bs' (Some b) = value_of bs (Some b)) -> map (value_of bs') os = map (value_of bs) os.
Proof. intros bs bs' os H. apply map_ext_in. intros [b|] X; auto. Qed.
Lemma plays_snoc : forall vs ps p, plays vs (ps ++ [p]) = play (plays vs ps) p.
Proof. intros. unfold plays. rewrite fold_left_app. reflexivity. Qed.
Lemma value_at_map : forall bs t i, value_at (map (value_of bs) (objs t)) i = value_of bs (obj t i).
Proof. intros. unfold value_at, obj. rewrite nth_error_map. destruct (nth_error (objs t) i); reflexivity. Qed.
Lemma in_uses : forall b os, In (Some b) os -> (1 <= sum (is_ b) os)%nat.
Proof. intros b os H. apply In_nth_error in H. destruct H as (n & H). pose proof (sum_nth _ (is_ b) _ _ _ H) as X. cbn in X. rewrite Nat.eqb_refl in X. exact X. Qed.
Lemma nth_app_one : forall A (l : list A) x b, nth_error (l ++ [x]) b = if Nat.eqb b (length l) then Some x else nth_error l b.
Proof.
  intros. destruct (Nat.eqb_spec b (length l)) as [->|N].
  - rewrite nth_error_app2, Nat.sub_diag; auto.
  - destruct (Nat.lt_ge_cases b (length l)).
    + apply nth_error_app1; auto.
    + rewrite nth_error_app2 by lia. destruct (b - length l)%nat eqn:E; [lia|]. cbn. destruct n; cbn; symmetry; apply nth_error_None; lia.
Qed.
Lemma set_nth_same : forall A n (x : A) l, nth_error l n = Some x -> set_nth n x l = l.
Proof. induction n; destruct l; cbn; intros; try congruence. f_equal; auto. Qed.

Lemma nth_ext' : forall A (l m : list A), (forall n, nth_error l n = nth_error m n) -> l = m.
Proof.
  induction l; destruct m; intros H; auto.
  - specialize (H 0%nat). discriminate.
  - specialize (H 0%nat). discriminate.
  - pose proof (H 0%nat) as E. cbn in E. injection E as ->. f_equal. apply IHl. intros n. apply (H (S n)).
Qed.
Lemma buf_same : forall ts ts' b u, sum (uses b) ts' = sum (uses b) ts -> sum (frees b) ts' = sum (frees b) ts -> buf_ok ts b u -> buf_ok ts' b u.
Proof. unfold buf_ok. intros ts ts' b u -> ->. auto. Qed.

(** Steps that change no buffer and keep the references. *)
Lemma quiet_step : forall vss bs ts k t t', Inv vss (State bs ts) -> nth_error ts k = Some t ->
  (forall b, uses b t' = uses b t) -> (forall b, frees b t' = frees b t) ->
  pc_ok bs (set_nth k t' ts) t' -> (forall vs, values_ok bs vs t -> values_ok bs vs t') ->
  Inv vss (State bs (set_nth k t' ts)).
Proof.
  intros vss bs ts k t t' I T U F P V.
  assert (SU : forall b, sum (uses b) (set_nth k t' ts) = sum (uses b) ts) by (intros b; pose proof (sum_set _ (uses b) k t t' ts T); rewrite U in H; lia).
  assert (SF : forall b, sum (frees b) (set_nth k t' ts) = sum (frees b) ts) by (intros b; pose proof (sum_set _ (frees b) k t t' ts T); rewrite F in H; lia).
  eapply step_inv; eauto.
  - intros b _. rewrite U. auto.
  - intros b u E. eapply buf_same; eauto. apply (Ibufs _ _ I _ _ E).
  - intros b N. destruct (Inone _ _ I b N) as (X & Y). cbn in X, Y. rewrite U, F.
    pose proof (sum_nth _ (uses b) _ _ _ T). pose proof (sum_nth _ (frees b) _ _ _ T). lia.
Qed.

Lemma sole_same : forall ts ts' t t' i, objs t' = objs t -> (forall b, sum (uses b) ts' = sum (uses b) ts) -> sole ts t i -> sole ts' t' i.
Proof. intros ts ts' t t' i O U (b & E & S). exists b. unfold obj in *. rewrite O, U. auto. Qed.

Theorem tstep_inv : forall vss bs ts k t p, Inv vss (State bs ts) -> nth_error ts k = Some t ->
  exists bs' t', tstep true bs t p = Ok (bs', t') /\ Inv vss (State bs' (set_nth k t' ts)).
Proof.
  intros vss bs ts k t p I T.
  pose proof (Ipc _ _ I _ _ T) as P. cbn [bufs threads] in P. unfold pc_ok in P. unfold tstep.
  assert (OB : forall i b, obj t i = Some b -> exists u, nth_error bs b = Some u /\ access bs b = Ok u /\ freed u = 0%nat /\ count u = Z.of_nat (sum (uses b) ts) /\ sum (frees b) ts = 0%nat).
  { intros i b O. eapply used_buf; eauto. pose proof (obj_uses' _ _ _ O). pose proof (sum_nth _ (uses b) _ _ _ T). lia. }
  assert (SU : forall b t', (sum (uses b) (set_nth k t' ts) + uses b t = sum (uses b) ts + uses b t')%nat) by (intros; apply sum_set; auto).
  assert (SF : forall b t', (sum (frees b) (set_nth k t' ts) + frees b t = sum (frees b) ts + frees b t')%nat) by (intros; apply sum_set; auto).
  destruct (at_ t) as [|i n|i next|i next n|b next|i n f|i f] eqn:A; try contradiction.
  - (* idle *)
    assert (Q : forall q, (forall vs, play vs q = vs) \/ (forall vs, values_ok bs vs t -> play (map (value_of bs) (objs t)) q = map (value_of bs) (objs t)) -> Inv vss (State bs (set_nth k (complete t (objs t) q) ts))).
    { intros q Hq. eapply quiet_step; eauto.
      - intros b. unfold uses. rewrite A. reflexivity.
      - intros b. unfold frees. rewrite A. reflexivity.
      - intros vs V. unfold values_ok in *. cbn [complete objs done]. rewrite plays_snoc, <- V. destruct Hq as [Hq|Hq]; [rewrite Hq|rewrite (Hq vs V)]; auto. }
    assert (G : forall q, extra q = None -> frees 0 (goto t q) = 0%nat -> (forall b n, q <> Freeing b n) -> pc_ok bs ts (goto t q) -> Inv vss (State bs (set_nth k (goto t q) ts))).
    { intros q E _ NF Pq.
      assert (U : forall b, uses b (goto t q) = uses b t) by (intros b; unfold uses; cbn [goto at_ objs]; rewrite A, E; reflexivity).
      assert (F : forall b, frees b (goto t q) = frees b t) by (intros b; unfold frees; cbn [goto at_]; rewrite A; destruct q; auto; edestruct NF; eauto).
      assert (SU' : forall b, sum (uses b) (set_nth k (goto t q) ts) = sum (uses b) ts) by (intros b; specialize (SU b (goto t q)); rewrite U in SU; lia).
      eapply quiet_step; eauto.
      unfold pc_ok in *. cbn [goto at_] in *. destruct q as [| |? [[]|]|? [[]|] ?|? ?| |]; auto; try (edestruct NF; eauto; fail); try discriminate.
      - destruct Pq as (O & S). split; auto. intros L. eapply sole_same; [reflexivity|exact SU'|]. apply (S L).
      - eapply sole_same; [reflexivity|exact SU'|exact Pq]. }
    destruct p as [l|i|i|i|i f].
    + (* New *)
      eexists _, _; split; [reflexivity|].
      set (t' := complete t (objs t ++ [Some (length bs)]) (New l)).
      assert (U : forall b, uses b t' = (uses b t + is_ b (Some (length bs)))%nat).
      { intros b. unfold uses, t'. cbn [complete at_ objs extra is_]. rewrite A, sum_app. cbn. lia. }
      assert (F : forall b, frees b t' = 0%nat) by reflexivity.
      assert (F' : forall b, frees b t = 0%nat) by (intros; unfold frees; rewrite A; auto).
      eapply step_inv; eauto.
      * intros b N Z. rewrite U, Z. cbn. destruct (Nat.eqb_spec (length bs) b); auto. subst. exfalso. apply N. apply nth_error_None. auto.
      * intros b u E. exists u. split; auto. rewrite nth_error_app1; auto. apply nth_error_Some. congruence.
      * intros b u. rewrite nth_app_one. destruct (Nat.eqb_spec b (length bs)) as [->|N]; intros E.
        -- injection E as <-. left. cbn [freed count]. assert (Z : nth_error bs (length bs) = None) by (apply nth_error_None; auto).
           destruct (Inone _ _ I _ Z) as (X & Y). cbn in X, Y. specialize (SU (length bs) t'). specialize (SF (length bs) t'). rewrite U in SU. rewrite F, F' in SF. cbn in SU. rewrite Nat.eqb_refl in SU. cbn. repeat split; lia.
        -- eapply buf_same; [| |apply (Ibufs _ _ I _ _ E)]; cbn [threads].
           ++ specialize (SU b t'). rewrite U in SU. cbn in SU. destruct (Nat.eqb_spec (length bs) b); [congruence|lia].
           ++ specialize (SF b t'). rewrite F, F' in SF. lia.
      * intros b. rewrite nth_app_one. destruct (Nat.eqb_spec b (length bs)) as [->|N]; intros E; [discriminate|].
        split; auto. rewrite U. destruct (Inone _ _ I _ E) as (X & Y). cbn in X. pose proof (sum_nth _ (uses b) _ _ _ T). cbn. destruct (Nat.eqb_spec (length bs) b); [congruence|lia].
      * intros vs V. unfold values_ok in *. unfold t'. cbn [complete objs done]. rewrite plays_snoc, <- V, map_app. cbn [play map]. f_equal.
        -- apply value_ext. intros b X. apply in_uses in X. cbn. rewrite nth_app_one. destruct (Nat.eqb_spec b (length bs)) as [->|]; auto.
           assert (Z : nth_error bs (length bs) = None) by (apply nth_error_None; auto). destruct (Inone _ _ I _ Z) as (Y & _). cbn in Y. pose proof (sum_nth _ (uses (length bs)) _ _ _ T) as W. unfold uses in W at 1. lia.
        -- cbn. rewrite nth_app_one, Nat.eqb_refl. reflexivity.
    + (* Copy *)
      destruct (obj t i) as [b|] eqn:O; [|eexists _, _; split; [reflexivity|apply Q; right; intros vs V; cbn; rewrite value_at_map, O; reflexivity]].
      destruct (OB _ _ O) as (u & E & -> & Fr & C & Nf). eexists _, _; split; [reflexivity|].
      set (t' := complete t (objs t ++ [Some b]) (Copy i)).
      assert (U : forall c, uses c t' = (uses c t + is_ c (Some b))%nat).
      { intros c. unfold uses, t'. cbn [complete at_ objs extra]. rewrite A, sum_app. cbn. lia. }
      assert (F : forall b, frees b t' = 0%nat) by reflexivity.
      assert (F' : forall b, frees b t = 0%nat) by (intros; unfold frees; rewrite A; auto).
      pose proof (obj_uses' _ _ _ O) as U1.
      assert (VO : forall c, value_of (set_nth b (Buf (count u + 1) (chars u) (freed u)) bs) c = value_of bs c).
      { intros [c|]; auto. cbn. rewrite nth_set_nth. destruct (Nat.eqb_spec c b) as [->|]; auto. rewrite E. reflexivity. }
      eapply step_inv; eauto.
      * intros c N Z. rewrite U, Z. cbn. destruct (Nat.eqb_spec b c); auto. subst. lia.
      * intros c v X. rewrite nth_set_nth. destruct (Nat.eqb_spec c b) as [->|]; [|eauto]. rewrite E. replace v with u in * by congruence. eexists. split; [reflexivity|]. auto.
      * intros c v. rewrite nth_set_nth. destruct (Nat.eqb_spec c b) as [->|N].
        -- rewrite E. intros X; injection X as <-. left. cbn [freed count]. specialize (SU b t'). specialize (SF b t'). rewrite U in SU. rewrite F, F' in SF. cbn in SU. rewrite Nat.eqb_refl in SU.
           destruct (Z.eqb_spec (count u + 1) 0); repeat split; lia.
        -- intros X. eapply buf_same; [| |apply (Ibufs _ _ I _ _ X)]; cbn [threads].
           ++ specialize (SU c t'). rewrite U in SU. cbn in SU. destruct (Nat.eqb_spec b c); [congruence|lia].
           ++ specialize (SF c t'). rewrite F, F' in SF. lia.
      * intros c. rewrite nth_set_nth. destruct (Nat.eqb_spec c b) as [->|N]; [rewrite E; discriminate|]. intros X.
        split; auto. rewrite U. destruct (Inone _ _ I _ X) as (Y & _). cbn in Y. pose proof (sum_nth _ (uses c) _ _ _ T). cbn. destruct (Nat.eqb_spec b c); [congruence|lia].
      * intros vs V. unfold values_ok in *. unfold t'. cbn [complete objs done]. rewrite plays_snoc, <- V. cbn [play]. rewrite value_at_map, O. cbn [value_of]. rewrite E.
        rewrite (map_ext _ _ VO), map_app. cbn. rewrite E. reflexivity.
    + (* Destroy *)
      destruct (obj t i) as [b|] eqn:O.
      * eexists _, _; split; [reflexivity|]. apply G; auto; [discriminate|]. cbn. split; auto. exists b. exact O.
      * eexists _, _; split; [reflexivity|]. apply Q. right. intros vs V. cbn. unfold obj in O. destruct (nth_error (objs t) i) as [o|] eqn:N.
        -- subst o. apply set_nth_same. rewrite nth_error_map, N. reflexivity.
        -- apply set_nth_out. rewrite nth_error_map, N. reflexivity.
    + (* Read *)
      destruct (obj t i) as [b|] eqn:O; [|eexists _, _; split; [reflexivity|apply Q; left; reflexivity]].
      destruct (OB _ _ O) as (u & E & -> & Fr & C & Nf). eexists _, _; split; [reflexivity|]. apply Q; left; reflexivity.
    + (* Mutate *)
      destruct (obj t i) as [b|] eqn:O; [|eexists _, _; split; [reflexivity|apply Q; right; intros vs V; cbn; rewrite value_at_map, O; reflexivity]].
      destruct (OB _ _ O) as (u & E & -> & Fr & C & Nf). eexists _, _; split; [reflexivity|]. apply G; auto; [discriminate|].
      cbn. split; [exists b; exact O|]. intros L. exists b. split; [exact O|]. pose proof (obj_uses' _ _ _ O). pose proof (sum_nth _ (uses b) _ _ _ T). lia.
  - (* Dropping *)
    destruct P as ((b & O) & P). rewrite O. destruct (OB _ _ O) as (u & E & -> & Fr & C & Nf). cbn [bind]. eexists _, _; split; [reflexivity|].
    pose proof (obj_nth _ _ _ O) as ON. pose proof (obj_uses _ _ _ O) as U0. pose proof (obj_uses' _ _ _ O) as U1. pose proof (sum_nth _ (uses b) _ _ _ T) as U2.
    set (nx := match next with Some (nb, _) => Some nb | None => None end).
    assert (NX : extra (at_ t) = nx) by (rewrite A; reflexivity).
    assert (NB : nx <> Some b).
    { intros X. destruct next as [(nb, f)|]; [|discriminate]. destruct P as (_ & S). cbn in X. injection X as ->. unfold uses in U2 at 1. rewrite A in U2. cbn in U2. rewrite Nat.eqb_refl in U2. lia. }
    assert (VO : forall c, value_of (set_nth b (Buf (count u - 1) (chars u) (freed u)) bs) c = value_of bs c).
    { intros [c|]; auto. cbn. rewrite nth_set_nth. destruct (Nat.eqb_spec c b) as [->|]; auto. rewrite E. reflexivity. }
    unfold drop_ref. fold nx. set (t' := Thread _ _ _).
    assert (E' : extra (at_ t') = None) by (unfold t'; cbn [at_]; destruct (count u =? 1); destruct next as [[]|]; reflexivity).
    assert (U : forall c, (uses c t' + is_ c (Some b) = uses c t)%nat).
    { intros c. unfold uses. rewrite E', NX. cbn [is_ t' objs]. pose proof (sum_set _ (is_ c) i (Some b) nx (objs t) ON). cbn [is_] in *. unfold t'. cbn [objs]. destruct nx; cbn [is_] in *; lia. }
    assert (F' : forall b, frees b t = 0%nat) by (intros; unfold frees; rewrite A; auto).
    assert (F : forall c, frees c t' = if (count u =? 1) then is_ c (Some b) else 0%nat).
    { intros c. unfold frees, t'. cbn [at_]. destruct (count u =? 1); destruct next as [[]|]; reflexivity. }
    eapply step_inv; eauto.
    + intros c N Z. specialize (U c). lia.
    + intros c v X. rewrite nth_set_nth. destruct (Nat.eqb_spec c b) as [->|]; [|eauto]. rewrite E. replace v with u in * by congruence. eexists. split; [reflexivity|]. auto.
    + intros c v. rewrite nth_set_nth. destruct (Nat.eqb_spec c b) as [->|N].
      * rewrite E. intros X; injection X as <-. left. cbn [freed count]. specialize (SU b t'). specialize (SF b t'). specialize (U b). rewrite F, F' in SF. cbn in U, SF. rewrite Nat.eqb_refl in U, SF.
        destruct (Z.eqb_spec (count u - 1) 0); destruct (Z.eqb_spec (count u) 1); repeat split; lia.
      * intros X. specialize (SU c t'). specialize (SF c t'). specialize (U c). rewrite F, F' in SF. cbn in U, SF. destruct (Nat.eqb_spec b c); [congruence|].
        eapply buf_same; [| |apply (Ibufs _ _ I _ _ X)]; cbn [threads]; [lia|destruct (count u =? 1); lia].
    + intros c. rewrite nth_set_nth. destruct (Nat.eqb_spec c b) as [->|N]; [rewrite E; discriminate|]. intros X.
      specialize (U c). rewrite F. destruct (Inone _ _ I _ X) as (Y & _). cbn in Y. pose proof (sum_nth _ (uses c) _ _ _ T). cbn in *. destruct (Nat.eqb_spec b c); [congruence|]. destruct (count u =? 1); lia.
    + assert (S : forall nb f, next = Some (nb, f) -> sole (set_nth k t' ts) t' i).
      { intros nb f ->. destruct P as (_ & S). exists nb. split.
        - unfold obj, t'. cbn [objs]. rewrite nth_set_nth, Nat.eqb_refl, ON. reflexivity.
        - specialize (SU nb t'). specialize (U nb). cbn in U. destruct (Nat.eqb_spec b nb) as [->|]; [destruct NB; reflexivity|lia]. }
      clearbody nx. unfold pc_ok. remember t' as tt eqn:Et in |- * at 1. unfold t' in Et. subst tt. cbn [at_]. destruct next as [(nb, f)|]; destruct (count u =? 1); auto; eapply S; reflexivity.
    + intros vs V. unfold values_ok in *. rewrite (map_ext _ _ VO). unfold t'. cbn [objs done]. rewrite map_set_nth. destruct next as [(nb, f)|].
      * destruct P as (W & _). rewrite <- V. apply set_nth_same. rewrite nth_error_map, ON. cbn [option_map]. f_equal. unfold nx. rewrite W, O. reflexivity.
      * rewrite plays_snoc, <- V. reflexivity.
  - (* Freeing *)
    assert (EX : exists u, nth_error bs b = Some u /\ freed u = 0%nat /\ count u = 0 /\ sum (uses b) ts = 0%nat /\ sum (frees b) ts = 1%nat).
    { assert (1 <= sum (frees b) ts)%nat by (pose proof (sum_nth _ (frees b) _ _ _ T) as X; unfold frees in X at 1; rewrite A, Nat.eqb_refl in X; exact X).
      destruct (nth_error bs b) as [u|] eqn:E; [|destruct (Inone _ _ I _ E) as (_ & Y); cbn in Y; lia].
      exists u. destruct (Ibufs _ _ I _ _ E) as [(X & Y & Z)|(X & Y & Z)]; cbn [threads] in *; [|lia]. destruct (Z.eqb_spec (count u) 0); [|lia]. repeat split; auto; lia. }
    destruct EX as (u & E & Fr & C & S0 & S1). unfold access. rewrite E, Fr. cbn [bind]. eexists _, _; split; [reflexivity|].
    set (t' := goto t _).
    assert (E' : extra (at_ t') = None) by (unfold t'; cbn; destruct next as [[]|]; reflexivity).
    assert (U : forall c, uses c t' = uses c t) by (intros c; unfold uses; rewrite E', A; reflexivity).
    assert (F : forall c, frees c t' = 0%nat) by (intros c; unfold frees, t'; cbn; destruct next as [[]|]; reflexivity).
    assert (F' : forall c, frees c t = is_ c (Some b)) by (intros c; unfold frees; rewrite A; reflexivity).
    assert (VO : forall c, value_of (set_nth b (Buf (count u) (chars u) (S (freed u))) bs) c = value_of bs c).
    { intros [c|]; auto. cbn. rewrite nth_set_nth. destruct (Nat.eqb_spec c b) as [->|]; auto. rewrite E. reflexivity. }
    eapply step_inv; eauto.
    + intros c _. rewrite U. auto.
    + intros c v X. rewrite nth_set_nth. destruct (Nat.eqb_spec c b) as [->|]; [|eauto]. rewrite E. replace v with u in * by congruence. eexists. split; [reflexivity|]. auto.
    + intros c v. rewrite nth_set_nth. specialize (SU c t'). specialize (SF c t'). rewrite U in SU. rewrite F, F' in SF. cbn in SF. destruct (Nat.eqb_spec c b) as [->|N].
      * rewrite E. intros X; injection X as <-. right. cbn [freed]. rewrite Fr. rewrite Nat.eqb_refl in SF. repeat split; lia.
      * intros X. destruct (Nat.eqb_spec b c); [congruence|]. eapply buf_same; [| |apply (Ibufs _ _ I _ _ X)]; cbn [threads]; lia.
    + intros c. rewrite nth_set_nth. destruct (Nat.eqb_spec c b) as [->|N]; [rewrite E; discriminate|]. intros X.
      rewrite U, F. destruct (Inone _ _ I _ X) as (Y & _). cbn in Y. pose proof (sum_nth _ (uses c) _ _ _ T). lia.
    + unfold pc_ok. unfold t' at 2. cbn [goto at_]. destruct next as [(i, f)|]; auto. eapply sole_same; [| |exact P]; [reflexivity|]. intros c. specialize (SU c t'). rewrite U in SU. lia.
    + intros vs V. unfold values_ok in *. rewrite (map_ext _ _ VO). exact V.
  - (* Checked *)
    destruct P as ((b & O) & P). rewrite O. destruct (OB _ _ O) as (u & E & AC & Fr & C & Nf).
    destruct (Z.ltb_spec 1 n) as [L|L].
    + rewrite AC. cbn [bind]. eexists _, _; split; [reflexivity|].
      set (t' := goto t _).
      assert (ZN : nth_error bs (length bs) = None) by (apply nth_error_None; auto).
      assert (U : forall c, uses c t' = (uses c t + is_ c (Some (length bs)))%nat).
      { intros c. unfold uses. rewrite A. cbn. lia. }
      assert (F : forall b, frees b t' = 0%nat) by reflexivity.
      assert (F' : forall b, frees b t = 0%nat) by (intros; unfold frees; rewrite A; auto).
      assert (VO : forall c, (1 <= uses c t)%nat -> value_of (bs ++ [Buf 1 (chars u) 0]) (Some c) = value_of bs (Some c)).
      { intros c X. cbn. rewrite nth_app_one. destruct (Nat.eqb_spec c (length bs)) as [->|]; auto.
        destruct (Inone _ _ I _ ZN) as (Y & _). cbn in Y. pose proof (sum_nth _ (uses (length bs)) _ _ _ T). lia. }
      eapply step_inv; eauto.
      * intros c N Z. rewrite U, Z. cbn. destruct (Nat.eqb_spec (length bs) c); auto. subst. exfalso. apply N. exact ZN.
      * intros c v X. exists v. split; auto. rewrite nth_error_app1; auto. apply nth_error_Some. congruence.
      * intros c v. rewrite nth_app_one. specialize (SU c t'). specialize (SF c t'). rewrite U in SU. rewrite F, F' in SF. cbn in SU. destruct (Nat.eqb_spec c (length bs)) as [->|N]; intros X.
        -- injection X as <-. left. cbn [freed count]. 
           destruct (Inone _ _ I _ ZN) as (X & Y). cbn in X, Y. rewrite Nat.eqb_refl in SU. cbn. repeat split; lia.
        -- destruct (Nat.eqb_spec (length bs) c); [congruence|]. eapply buf_same; [| |apply (Ibufs _ _ I _ _ X)]; cbn [threads]; lia.
      * intros c. rewrite nth_app_one. destruct (Nat.eqb_spec c (length bs)) as [->|N]; intros X; [discriminate|].
        split; auto. rewrite U. destruct (Inone _ _ I _ X) as (Y & _). cbn in Y. pose proof (sum_nth _ (uses c) _ _ _ T). cbn. destruct (Nat.eqb_spec (length bs) c); [congruence|lia].
      * cbn -[value_of sum uses]. split; [exists b; exact O|]. split.
        -- change (obj t' i) with (obj t i). rewrite O. rewrite (VO b) by (eapply obj_uses'; eauto). cbn. rewrite nth_app_one, Nat.eqb_refl, E. reflexivity.
        -- specialize (SU (length bs) t'). rewrite U in SU. destruct (Inone _ _ I _ ZN) as (Y & _). cbn in Y, SU. rewrite Nat.eqb_refl in SU. lia.
      * intros vs V. unfold values_ok in *. change (done t') with (done t). change (objs t') with (objs t). rewrite <- V. apply value_ext. intros c X. apply VO. apply in_uses in X. unfold uses. lia.
    + eexists _, _; split; [reflexivity|].
      assert (U : forall c, uses c (goto t (Writing i f)) = uses c t) by (intros c; unfold uses; rewrite A; reflexivity).
      eapply quiet_step; eauto.
      * intros c. unfold frees. rewrite A. reflexivity.
      * cbn. eapply sole_same; [| |exact (P L)]; [reflexivity|]. intros c. specialize (SU c (goto t (Writing i f))). rewrite U in SU. lia.
  - (* Writing *)
    destruct P as (b & O & S). rewrite O. destruct (OB _ _ O) as (u & E & -> & Fr & C & Nf). cbn [bind]. eexists _, _; split; [reflexivity|].
    pose proof (obj_nth _ _ _ O) as ON. pose proof (obj_uses' _ _ _ O) as U1. pose proof (sum_nth _ (uses b) _ _ _ T) as U2.
    set (t' := complete _ _ _).
    assert (U : forall c, uses c t' = uses c t) by (intros c; unfold uses; rewrite A; reflexivity).
    assert (F : forall b, frees b t' = 0%nat) by reflexivity.
    assert (F' : forall b, frees b t = 0%nat) by (intros; unfold frees; rewrite A; auto).
    eapply step_inv; eauto.
    + intros c _. rewrite U. auto.
    + intros c v X. rewrite nth_set_nth. destruct (Nat.eqb_spec c b) as [->|]; [|eauto]. rewrite E. eexists. split; [reflexivity|]. right. lia.
    + intros c v. rewrite nth_set_nth. specialize (SU c t'). specialize (SF c t'). rewrite U in SU. rewrite F, F' in SF. destruct (Nat.eqb_spec c b) as [->|N]; intros X.
      * rewrite E in X. injection X as <-. eapply (buf_same ts); [lia|lia|]. exact (Ibufs _ _ I _ _ E).
      * eapply buf_same; [| |apply (Ibufs _ _ I _ _ X)]; cbn [threads]; lia.
    + intros c. rewrite nth_set_nth. destruct (Nat.eqb_spec c b) as [->|N]; [rewrite E; discriminate|]. intros X.
      rewrite U, F. destruct (Inone _ _ I _ X) as (Y & _). cbn in Y. pose proof (sum_nth _ (uses c) _ _ _ T). lia.
    + exact Logic.I.
    + intros vs V. unfold values_ok in *. unfold t'. cbn [complete objs done]. rewrite plays_snoc, <- V. cbn [play]. rewrite value_at_map, O. cbn [value_of]. rewrite E.
      apply nth_ext'. intros j. rewrite nth_error_map, nth_set_nth, !nth_error_map.
      destruct (Nat.eqb_spec j i) as [->|N].
      * rewrite ON. cbn. rewrite nth_set_nth, Nat.eqb_refl, E. reflexivity.
      * destruct (nth_error (objs t) j) as [[c|]|] eqn:J; auto. cbn. rewrite nth_set_nth. destruct (Nat.eqb_spec c b) as [->|]; auto.
        exfalso. pose proof (sum_two _ (is_ b) _ _ _ _ _ J ON N) as X. cbn in X. rewrite Nat.eqb_refl in X. unfold uses in U2 at 1. lia.
Qed.

Lemma gstep_inv : forall vss st c, Inv vss st -> exists st', gstep true st c = Ok st' /\ Inv vss st'.
Proof.
  intros vss [bs ts] (k, p) I. unfold gstep. cbn [threads bufs fst snd]. destruct (nth_error ts k) as [t|] eqn:T; [|eauto].
  destruct (tstep_inv _ _ _ _ _ p I T) as (bs' & t' & -> & I'). cbn [bind]. eauto.
Qed.
Lemma grun_inv : forall vss cs st, Inv vss st -> exists st', grun true st cs = Ok st' /\ Inv vss st'.
Proof.
  induction cs as [|c cs IH]; intros st I; cbn [grun]; [eauto|].
  destruct (gstep_inv _ _ c I) as (st' & -> & I'). cbn [bind]. auto.
Qed.
Lemma sum_repeat : forall b n, sum (is_ b) (repeat (Some 0%nat) n) = (if Nat.eqb 0 b then n else 0)%nat.
Proof. induction n; cbn [repeat sum]. destruct (Nat.eqb 0 b); reflexivity. rewrite IHn. cbn. destruct b; reflexivity. Qed.
Lemma start_inv : forall l ns, (0 < total ns)%nat -> Inv (map (repeat (Some l)) ns) (start l ns).
Proof.
  intros l ns P.
  assert (U : forall b, sum (uses b) (threads (start l ns)) = (if Nat.eqb 0 b then total ns else 0)%nat).
  { intros b. clear P. cbn [start threads]. induction ns; cbn [map sum total fold_right]. destruct (Nat.eqb 0 b); auto. rewrite IHns. unfold uses. cbn [objs at_ extra is_]. rewrite sum_repeat. destruct (Nat.eqb 0 b); auto. }
  assert (F : forall b, sum (frees b) (threads (start l ns)) = 0%nat).
  { intros b. clear. cbn [start threads]. induction ns; cbn; auto. }
  assert (T : forall k t, nth_error (threads (start l ns)) k = Some t -> exists n, nth_error ns k = Some n /\ t = Thread (repeat (Some 0%nat) n) Idle []).
  { intros k t. cbn. rewrite nth_error_map. destruct (nth_error ns k); cbn; intros X; [injection X as <-; eauto|discriminate]. }
  constructor.
  - intros [|[|b]] u E; cbn in E; try discriminate. injection E as <-. left. cbn [freed count]. rewrite U, F. cbn. destruct (Z.eqb_spec (Z.of_nat (total ns)) 0); [lia|auto].
  - intros [|b] E; [discriminate|]. rewrite U, F. auto.
  - intros k t E. destruct (T _ _ E) as (n & _ & ->). exact Logic.I.
  - intros k t E. destruct (T _ _ E) as (n & E' & ->). exists (repeat (Some l) n). rewrite nth_error_map, E'. split; auto. unfold values_ok. cbn [objs done plays fold_left].
    clear. induction n; cbn; auto. rewrite <- IHn. reflexivity.
Qed.
