Require Import ZArith List Bool Lia.
From Verif Require Import Base BaseProofs ArenaModel ArenaProofs ArenaProofs4 ArenaPmrModel ArenaPmrSpec ArenaPmrProofs.
Import ListNotations.
Open Scope Z_scope.

Lemma progress_p s o : preach s -> allowed s o -> exists s', pstep s o = Ok s' /\ preach s'.
Proof.
  intros HR HA. destruct (pstep_ok s o (preach_pinv s HR) HA) as (s' & E & _). exists s'. split; auto. econstructor; eauto.
Qed.

Lemma once_p s k x : preach s -> nth_error (p_res s) k = Some x ->
  (r_deleted x = 0%nat /\ exists i a, stands s i a (Some k) /\ forall j b, stands s j b (Some k) -> j = i) \/
  (r_deleted x = 1%nat /\ forall j b, ~ stands s j b (Some k)).
Proof.
  intros HR E. apply preach_pinv in HR. destruct (pi_kept s HR k x E) as [D|D]; [left|right]; split; auto.
  - destruct (pi_held s HR k x E D) as (i & a & H). exists i, a. split; auto. intros j b K. eapply pi_one; eauto.
  - intros j b K. destruct (pi_live s HR _ _ _ K) as (y & E' & D'). rewrite E in E'. inv E'. congruence.
Qed.

Lemma none_left_p s k x : preach s -> (forall i a r, ~ stands s i a r) -> nth_error (p_res s) k = Some x -> r_deleted x = 1%nat.
Proof. intros HR HN E. destruct (once_p s k x HR E) as [[_ (i & a & H & _)]|[D _]]; auto. destruct (HN _ _ _ H). Qed.

Lemma get_res_p debug s i a k : preach s -> stands s i a (Some k) ->
  get_memory_resource debug s i = Ok (Some k) /\ exists b, get_arena_of s (HArena k) = Ok (Some b).
Proof.
  intros HR HS. destruct (get_stands _ _ _ _ HS) as (o & _ & G & _ & _ & A). unfold get_memory_resource. rewrite G. cbn [bind]. rewrite A.
  split; auto. destruct (pi_live s (preach_pinv s HR) _ _ _ HS) as (x & E & D). simpl. rewrite E, D. eauto.
Qed.

Lemma own_p s i a k : preach s -> stands s i a (Some k) -> original s i -> get_arena_of s (HArena k) = Ok (Some a).
Proof.
  intros HR HS HO. apply preach_pinv in HR. destruct (pi_live s HR _ _ _ HS) as (x & E & D). simpl. rewrite E, D.
  rewrite (pi_own s HR _ _ _ _ HS HO E). reflexivity.
Qed.

Lemma equal_p s i a k j b q : preach s -> stands s i a (Some k) -> original s i -> stands s j b (Some q) -> original s j ->
  do_is_equal s (HArena k) (HArena q) = Ok (Nat.eqb i j) /\
  (forall c, do_is_equal s (HArena k) (HOwn c) = Ok (Z.eqb a c)) /\
  do_is_equal s (HArena k) HForeign = Ok false.
Proof.
  intros HR Hi Oi Hj Oj. unfold do_is_equal. rewrite (own_p s i a k HR Hi Oi), (own_p s j b q HR Hj Oj). cbn [bind].
  split; [|split; auto]. f_equal. destruct (Z.eqb_spec a b) as [->|N]; symmetry.
  - apply Nat.eqb_eq. eapply pi_addr; eauto. now apply preach_pinv.
  - apply Nat.eqb_neq. intros ->. destruct (stands_fun _ _ _ _ _ _ Hi Hj). congruence.
Qed.

Lemma self_p s i a k : preach s -> stands s i a (Some k) -> do_is_equal s (HArena k) (HArena k) = Ok true.
Proof.
  intros HR HS. destruct (get_res_p true s i a k HR HS) as (_ & b & E). unfold do_is_equal. rewrite E. cbn [bind]. now rewrite Z.eqb_refl.
Qed.

Lemma sym_p s g h v : do_is_equal s g h = Ok v -> do_is_equal s h g = Ok v.
Proof.
  unfold do_is_equal. destruct (get_arena_of s g) as [x| |], (get_arena_of s h) as [y| |]; cbn [bind]; try discriminate.
  destruct x, y; auto. now rewrite Z.eqb_sym.
Qed.

Lemma trans_p s f g h : do_is_equal s f g = Ok true -> do_is_equal s g h = Ok true -> do_is_equal s f h = Ok true.
Proof.
  unfold do_is_equal. destruct (get_arena_of s f) as [x| |], (get_arena_of s g) as [y| |], (get_arena_of s h) as [z| |]; cbn [bind]; try discriminate.
  destruct x, y, z; try discriminate. intros H K. inv H. inv K.
  repeat match goal with H : (_ =? _) = true |- _ => apply Z.eqb_eq in H; subst end. now rewrite Z.eqb_refl.
Qed.

Lemma effect_new_p s addr ok j a r : preach s -> vacant s addr ->
  exists s', pstep s (PNew addr ok) = Ok s' /\
  (stands s' j a r <-> stands s j a r \/ (j = length (p_objs s) /\ a = addr /\ r = if ok then Some (length (p_res s)) else None)).
Proof. intros _ _. eexists. split; [reflexivity|]. apply new_stands. Qed.

Lemma effect_move_p s i a0 r0 addr j a r : preach s -> stands s i a0 r0 -> vacant s addr ->
  exists s', pstep s (PMove i addr) = Ok s' /\ p_res s' = p_res s /\
  (stands s' j a r <-> (j <> i /\ stands s j a r) \/ (j = i /\ a = a0 /\ r = None) \/ (j = length (p_objs s) /\ a = addr /\ r = r0)).
Proof.
  intros HR HS HV. destruct (progress_p s (PMove i addr) HR) as (s' & E & _); [simpl; eauto|].
  exists s'. split; auto. destruct (move_stands _ _ _ _ _ _ HS E) as (H1 & H2 & _). auto.
Qed.

Lemma effect_destroy_p s i a0 r0 : preach s -> stands s i a0 r0 ->
  exists s', pstep s (PDestroy i) = Ok s' /\
  (forall j a r, stands s' j a r <-> j <> i /\ stands s j a r) /\
  (forall k x, nth_error (p_res s) k = Some x -> exists x', nth_error (p_res s') k = Some x' /\ r_arena x' = r_arena x /\
     (r0 = Some k -> r_deleted x' = 1%nat) /\ (r0 <> Some k -> r_deleted x' = r_deleted x)).
Proof.
  intros HR HS. pose proof (preach_pinv s HR) as HI. destruct (destroy_ok s i a0 r0 HI HS) as (s' & E & _ & H1 & H2 & _).
  exists s'. split; auto. split; auto. intros k x K. destruct (H2 k x K) as (x' & X1 & X2 & X3). exists x'. repeat split; auto.
  - intros ->. rewrite Nat.eqb_refl in X3. rewrite X3. destruct (pi_live s HI _ _ _ HS) as (y & Y1 & Y2). rewrite K in Y1. inv Y1. now rewrite Y2.
  - intros N. destruct r0 as [q|]; auto. destruct (Nat.eqb_spec q k) as [->|]; auto. congruence.
Qed.
