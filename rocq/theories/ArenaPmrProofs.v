Require Import ZArith List Bool Lia.
From Verif Require Import Base BaseProofs ArenaModel ArenaProofs ArenaProofs4 ArenaPmrModel ArenaPmrSpec.
Import ListNotations.
Open Scope Z_scope.

Record pinv (s : pmr) : Prop := {
  pi_live : forall i a k, stands s i a (Some k) -> exists x, nth_error (p_res s) k = Some x /\ r_deleted x = 0%nat;
  pi_one : forall i j a b k, stands s i a (Some k) -> stands s j b (Some k) -> i = j;
  pi_kept : forall k x, nth_error (p_res s) k = Some x -> r_deleted x = 0%nat \/ r_deleted x = 1%nat;
  pi_held : forall k x, nth_error (p_res s) k = Some x -> r_deleted x = 0%nat -> exists i a, stands s i a (Some k);
  pi_addr : forall i j a r q, stands s i a r -> stands s j a q -> i = j;
  pi_own : forall i a k x, stands s i a (Some k) -> original s i -> nth_error (p_res s) k = Some x -> r_arena x = a }.

Lemma stands_fun s i a r b q : stands s i a r -> stands s i b q -> a = b /\ r = q.
Proof. intros (o & H1 & _ & H2 & H3) (o' & K1 & _ & K2 & K3). rewrite H1 in K1. inv K1. auto. Qed.

Lemma nth_app_one {T} (l : list T) x : nth_error (l ++ [x]) (length l) = Some x.
Proof. rewrite nth_error_app2, Nat.sub_diag by lia. reflexivity. Qed.
Lemma nth_app_old {T} (l r : list T) i x : nth_error l i = Some x -> nth_error (l ++ r) i = Some x.
Proof. intros H. rewrite nth_error_app1; auto. apply nth_error_Some. congruence. Qed.

Lemma upd_cases {T} (l : list T) i x j y : nth_error (upd i x l) j = Some y -> (j = i /\ y = x) \/ (j <> i /\ nth_error l j = Some y).
Proof.
  destruct (Nat.eq_dec j i) as [->|N]; [|rewrite nth_error_upd_ne by auto; auto].
  intros H. left. split; auto. destruct (nth_error l i) eqn:E.
  - rewrite (nth_error_upd_eq l i x t E) in H. congruence.
  - apply nth_error_None in E. assert (nth_error (upd i x l) i = None) by (apply nth_error_None; rewrite length_upd; auto). congruence.
Qed.

Lemma get_stands s i a r : stands s i a r -> exists o, nth_error (p_objs s) i = Some o /\ get_obj s i = Ok o /\ o_alive o = true /\ o_addr o = a /\ o_res o = r.
Proof. intros (o & H1 & H2 & H3 & H4). exists o. unfold get_obj. rewrite H1, H2. auto. Qed.

(** ** Construction *)
Lemma new_stands s addr ok j a r : stands (p_new s addr ok) j a r <->
  stands s j a r \/ (j = length (p_objs s) /\ a = addr /\ r = if ok then Some (length (p_res s)) else None).
Proof.
  split.
  - intros (o & H1 & H2 & H3 & H4). apply nth_error_snoc in H1 as [[-> ->]|H1]; [right; auto|left; exists o; auto].
  - intros [(o & H1 & H2)|(-> & -> & ->)].
    + exists o. split; auto. now apply nth_app_old.
    + eexists. split; [apply nth_app_one|]. auto.
Qed.

Lemma stands_bound s i a r : stands s i a r -> (i < length (p_objs s))%nat.
Proof. intros (o & H & _). apply nth_error_Some. congruence. Qed.

Lemma new_pinv s addr ok : pinv s -> vacant s addr -> pinv (p_new s addr ok).
Proof.
  intros [P1 P2 P3 P4 P5 P6] HV.
  assert (NR : forall k x, nth_error (p_res (p_new s addr ok)) k = Some x ->
    nth_error (p_res s) k = Some x \/ (ok = true /\ k = length (p_res s) /\ x = {| r_arena := addr; r_deleted := 0 |})).
  { intros k x H. simpl in H. destruct ok; [|rewrite app_nil_r in H; auto].
    apply nth_error_snoc in H as [[-> ->]|H]; auto. }
  assert (OB : forall i a k, stands s i a (Some k) -> (k < length (p_res s))%nat).
  { intros i a k H. destruct (P1 _ _ _ H) as (x & E & _). apply nth_error_Some. congruence. }
  constructor.
  - intros i a k H. apply new_stands in H as [H|(-> & -> & H)].
    + destruct (P1 _ _ _ H) as (x & E & D). exists x. split; auto. simpl. now apply nth_app_old.
    + destruct ok; [|discriminate]. inv H. eexists. split; [apply nth_app_one|]. reflexivity.
  - intros i j a b k Hi Hj. apply new_stands in Hi as [Hi|(-> & -> & Hi)], Hj as [Hj|(-> & -> & Hj)]; auto.
    + eauto.
    + destruct ok; [|discriminate]. inv Hj. apply OB in Hi. lia.
    + destruct ok; [|discriminate]. inv Hi. apply OB in Hj. lia.
  - intros k x H. apply NR in H as [H|(-> & -> & ->)]; eauto.
  - intros k x H D. apply NR in H as [H|(-> & -> & ->)].
    + destruct (P4 _ _ H D) as (i & a & HS). exists i, a. apply new_stands. auto.
    + exists (length (p_objs s)), addr. apply new_stands. auto.
  - intros i j a r q Hi Hj. apply new_stands in Hi as [Hi|(-> & EA & Hi)], Hj as [Hj|(-> & EB & Hj)]; auto.
    + eauto.
    + subst a. exfalso. exact (HV _ _ Hi).
    + subst a. exfalso. exact (HV _ _ Hj).
  - intros i a k x H (o & HO & HM) E. apply new_stands in H as [H|(-> & -> & H)].
    + apply NR in E as [E|(-> & -> & ->)]; [|apply OB in H; lia].
      apply (P6 i a k x); auto. exists o. split; auto. destruct H as (o' & H1 & _). simpl in HO.
      rewrite (nth_app_old _ _ _ _ H1) in HO. congruence.
    + destruct ok; [|discriminate]. inv H. simpl in E. rewrite nth_app_one in E. inv E. reflexivity.
Qed.

(** ** Moving *)
Lemma move_stands s i addr s' a0 r0 : stands s i a0 r0 -> p_move s i addr = Ok s' ->
  p_res s' = p_res s /\
  (forall j a r, stands s' j a r <-> (j <> i /\ stands s j a r) \/ (j = i /\ a = a0 /\ r = None) \/
                                     (j = length (p_objs s) /\ a = addr /\ r = r0)) /\
  (forall j, original s' j -> j <> length (p_objs s) /\ original s j).
Proof.
  intros HS H. destruct (get_stands _ _ _ _ HS) as (o & E & G & A1 & A2 & A3). unfold p_move in H. rewrite G in H. cbn [bind] in H. inv H.
  split; [reflexivity|]. pose proof (stands_bound _ _ _ _ HS) as B. split.
  - intros j a r. split.
    + intros (x & H1 & H2 & H3 & H4). simpl in H1. apply nth_error_snoc in H1 as [[-> ->]|H1].
      * rewrite length_upd. right. right. simpl in *. subst. auto.
      * apply upd_cases in H1 as [[-> ->]|[N H1]]; simpl in *; subst.
        -- right. left. auto.
        -- left. split; auto. exists x. auto.
    + intros [[N (x & H1 & H2)]|[(-> & -> & ->)|(-> & -> & ->)]].
      * exists x. split; auto. simpl. apply nth_app_old. rewrite nth_error_upd_ne; auto.
      * eexists. split; [simpl; apply nth_app_old; eapply nth_error_upd_eq; exact E|]. auto.
      * eexists. split; [simpl; rewrite nth_error_app2 by (rewrite length_upd; lia); rewrite length_upd, Nat.sub_diag; reflexivity|]. auto.
  - intros j (x & H1 & H2). simpl in H1. apply nth_error_snoc in H1 as [[-> ->]|H1]; [discriminate|].
    apply upd_cases in H1 as [[-> ->]|[N H1]].
    + split; [lia|]. exists o. simpl in H2. auto.
    + split; [|exists x; auto]. intros ->. rewrite (proj2 (nth_error_None _ _)) in H1 by lia. discriminate.
Qed.

Lemma move_pinv s i addr s' a0 r0 : pinv s -> stands s i a0 r0 -> vacant s addr -> p_move s i addr = Ok s' -> pinv s'.
Proof.
  intros [P1 P2 P3 P4 P5 P6] HS HV H. destruct (move_stands _ _ _ _ _ _ HS H) as (ER & EI & EO).
  pose proof (stands_bound _ _ _ _ HS) as B.
  constructor; rewrite ?ER.
  - intros j a k K. apply EI in K as [[N K]|[(_ & _ & K)|(-> & -> & <-)]]; eauto. discriminate.
  - intros j l a b k K L. apply EI in K as [[N K]|[(_ & _ & K)|(-> & -> & <-)]], L as [[N' L]|[(_ & _ & L)|(-> & -> & L)]]; try discriminate; eauto.
    + subst r0. exfalso. apply N. eauto.
    + exfalso. apply N'. eauto.
  - eauto.
  - intros k x E D. destruct (P4 _ _ E D) as (j & a & K). destruct (Nat.eq_dec j i) as [->|N].
    + destruct (stands_fun _ _ _ _ _ _ K HS) as [-> <-]. exists (length (p_objs s)), addr. apply EI. auto.
    + exists j, a. apply EI. auto.
  - intros j l a r q K L. apply EI in K as [[N K]|[(-> & -> & ->)|(-> & -> & ->)]], L as [[N' L]|[(-> & EL & ->)|(-> & EL & ->)]]; auto.
    + eauto.
    + subst a. exfalso. apply N. eauto.
    + subst a. exfalso. exact (HV _ _ K).
    + exfalso. apply N'. eauto.
    + subst a0. exfalso. exact (HV _ _ HS).
    + exfalso. exact (HV _ _ L).
    + subst a0. exfalso. exact (HV _ _ HS).
  - intros j a k x K HO E. destruct (EO j HO) as [NL HO']. apply EI in K as [[N K]|[(_ & _ & K)|(-> & _ & _)]]; [eauto|discriminate|lia].
Qed.

(** ** Destruction *)
Lemma delete_ok s i a r : pinv s -> stands s i a r -> exists l, p_delete (p_res s) r = Ok l /\
  match r with
  | None => l = p_res s
  | Some k => exists x, nth_error (p_res s) k = Some x /\ r_deleted x = 0%nat /\ l = upd k {| r_arena := r_arena x; r_deleted := 1 |} (p_res s)
  end.
Proof.
  intros HI HS. destruct r as [k|]; [|exists (p_res s); auto]. destruct (pi_live s HI _ _ _ HS) as (x & E & D).
  simpl. rewrite E, D. eauto 6.
Qed.

Lemma destroy_ok s i a r : pinv s -> stands s i a r -> exists s', p_destroy s i = Ok s' /\ pinv s' /\
  (forall j b q, stands s' j b q <-> j <> i /\ stands s j b q) /\
  (forall k x, nth_error (p_res s) k = Some x -> exists x', nth_error (p_res s') k = Some x' /\ r_arena x' = r_arena x /\
     r_deleted x' = if match r with Some q => (q =? k)%nat | None => false end then S (r_deleted x) else r_deleted x) /\
  length (p_res s') = length (p_res s).
Proof.
  intros HI HS. destruct (get_stands _ _ _ _ HS) as (o & E & G & A1 & A2 & A3).
  destruct (delete_ok s i a r HI HS) as (l & ED & HL). unfold p_destroy. rewrite G. cbn [bind]. rewrite A3, ED. cbn [bind].
  eexists. split; [reflexivity|]. set (s' := {| p_objs := _; p_res := _ |}). clear A1 A2 A3 G.
  assert (EI : forall j b q, stands s' j b q <-> j <> i /\ stands s j b q).
  { intros j b q. split.
    - intros (x & H1 & H2 & H3). simpl in H1. apply upd_cases in H1 as [[-> ->]|[N H1]]; [discriminate|]. split; auto. exists x. auto.
    - intros [N (x & H1 & H2)]. exists x. split; auto. simpl. rewrite nth_error_upd_ne; auto. }
  assert (EO : forall j, original s' j -> original s j).
  { intros j (x & H1 & H2). simpl in H1. apply upd_cases in H1 as [[-> ->]|[N H1]]; [exists o; auto|exists x; auto]. }
  assert (ER : forall k x, nth_error (p_res s) k = Some x -> exists x', nth_error l k = Some x' /\ r_arena x' = r_arena x /\
     r_deleted x' = if match r with Some q => (q =? k)%nat | None => false end then S (r_deleted x) else r_deleted x).
  { intros k x K. destruct r as [q|]; [|subst l; eauto]. destruct HL as (y & Y1 & Y2 & ->).
    destruct (Nat.eqb_spec q k) as [->|N].
    - rewrite Y1 in K. inv K. eexists. split; [eapply nth_error_upd_eq; eauto|]. simpl. rewrite Y2. auto.
    - exists x. rewrite nth_error_upd_ne by auto. auto. }
  assert (EL : length l = length (p_res s)).
  { destruct r; [destruct HL as (y & _ & _ & ->); apply length_upd|now subst]. }
  assert (EB : forall k x', nth_error l k = Some x' -> exists x, nth_error (p_res s) k = Some x).
  { intros k x' K. destruct (nth_error (p_res s) k) eqn:Q; eauto. apply nth_error_None in Q.
    assert (k < length l)%nat by (apply nth_error_Some; congruence). lia. }
  split; [|split; [exact EI|split; [exact ER|exact EL]]]. destruct HI as [P1 P2 P3 P4 P5 P6]. constructor.
  - intros j b k K. apply EI in K as [N K]. destruct (P1 _ _ _ K) as (x & X1 & X2). destruct (ER k x X1) as (x' & X3 & _ & X4).
    exists x'. split; auto. rewrite X4. destruct r as [q|]; auto. destruct (Nat.eqb_spec q k) as [->|]; auto.
    exfalso. apply N. eauto.
  - intros j m b c k K L. apply EI in K as [_ K], L as [_ L]. eauto.
  - intros k x' K. simpl in K. destruct (EB _ _ K) as (x & X1). destruct (ER _ _ X1) as (x2 & X2 & _ & X3).
    rewrite K in X2. inv X2. rewrite X3. destruct r as [q|]; [|eauto]. destruct (Nat.eqb_spec q k) as [->|]; eauto.
    destruct HL as (y & Y1 & Y2 & _). rewrite Y1 in X1. inv X1. rewrite Y2. auto.
  - intros k x' K D. simpl in K. destruct (EB _ _ K) as (x & X1). destruct (ER _ _ X1) as (x2 & X2 & _ & X3).
    rewrite K in X2. inv X2. rewrite D in X3.
    assert (r <> Some k) by (intros ->; rewrite Nat.eqb_refl in X3; discriminate).
    assert (D' : r_deleted x = 0%nat) by (destruct r as [q|]; [destruct (q =? k)%nat; [discriminate|]|]; auto).
    destruct (P4 _ _ X1 D') as (j & b & Q). exists j, b. apply EI. split; auto. intros ->.
    destruct (stands_fun _ _ _ _ _ _ Q HS). congruence.
  - intros j m b q q' K L. apply EI in K as [_ K], L as [_ L]. eauto.
  - intros j b k x' K HO E'. apply EI in K as [_ K]. simpl in E'. destruct (EB _ _ E') as (x & X1).
    destruct (ER _ _ X1) as (x2 & X2 & X3 & _). rewrite E' in X2. inv X2. rewrite X3. eauto.
Qed.

Lemma pinit_pinv : pinv pinit.
Proof.
  constructor; try (intros; destruct i; match goal with H : stands _ _ _ _ |- _ => destruct H as (? & H & _); discriminate end);
    intros [|k] x H; discriminate.
Qed.

Lemma pstep_ok s o : pinv s -> allowed s o -> exists s', pstep s o = Ok s' /\ pinv s'.
Proof.
  intros HI HA. destruct o as [addr ok|i addr|i]; simpl in *.
  - eexists. split; [reflexivity|]. now apply new_pinv.
  - destruct HA as [(a & r & HS) HV]. destruct (get_stands _ _ _ _ HS) as (o & E & G & _).
    assert (exists s', p_move s i addr = Ok s') as (s' & Es) by (unfold p_move; rewrite G; cbn [bind]; eauto).
    exists s'. split; auto. eapply move_pinv; eauto.
  - destruct HA as (a & r & HS). destruct (destroy_ok s i a r HI HS) as (s' & E & HI' & _). eauto.
Qed.

Lemma preach_pinv s : preach s -> pinv s.
Proof.
  induction 1 as [|s o s' _ IH HA HS]; [apply pinit_pinv|]. destruct (pstep_ok s o IH HA) as (s2 & E & H2).
  rewrite HS in E. inv E. exact H2.
Qed.
