(** Concrete programs used beside the arena theorems: an allocator meeting
    [good_block_alloc], and a checker showing that a given sequence of
    operations is permitted, so that the state it leads to is reachable. *)
Require Import ZArith List Bool Lia.
From Verif Require Import Base BaseProofs ArenaSpec ArenaModel ArenaStatements.
Import ListNotations.
Open Scope Z_scope.

(** Blocks one after another, at addresses [off] modulo 32.  Requests made when
    [budget] bytes are already held are refused. *)
Definition top_of (l : list (Z * Z)) : Z := fold_right (fun x t => Z.max (fst x + snd x) t) 4096 l.
Definition bump (off budget : Z) (h : history) (size : Z) : option Z :=
  let l := live_blocks_list h in
  let a := (top_of l + 31) / 32 * 32 + off in
  if (0 <=? size) && (a + size <=? 2 ^ 63) && (sizes l <? budget) then Some a else None.

Lemma top_of_ge l : 4096 <= top_of l /\ forall b n, In (b, n) l -> b + n <= top_of l.
Proof.
  induction l as [|[b n] l [H1 H2]]; simpl; (split; [lia|]).
  - intros b0 n0 [].

  - intros b' n' [E|H]; [inversion E; subst; lia|]. specialize (H2 _ _ H). lia.
Qed.

Lemma bump_good A off budget : A = 8 \/ A = 16 \/ A = 32 -> 0 <= off -> off mod A = 0 ->
  good_block_alloc A (bump off budget).
Proof.
  intros HA H0 Hoff h size a H. unfold bump in H.
  destruct (top_of_ge (live_blocks_list h)) as [T1 T2].
  set (t := top_of (live_blocks_list h)) in *.
  destruct ((0 <=? size) && _ && _) eqn:E; [|discriminate]. injection H as H.
  apply andb_prop in E as [E _]. apply andb_prop in E as [E1 E2].
  apply Z.leb_le in E1, E2.
  pose proof (Z.div_mod (t + 31) 32 ltac:(lia)). pose proof (Z.mod_pos_bound (t + 31) 32 ltac:(lia)).
  split; [lia|]. split.
  - rewrite <- H, Z.add_mod, Hoff, Z.add_0_r, Z.mod_mod by lia.
    apply Z.mod_divide; [lia|]. apply Z.divide_mul_r. destruct HA as [->|[->| ->]]; [exists 4|exists 2|exists 1]; lia.
  - split; [lia|]. intros b n Hin. specialize (T2 b n Hin). right. lia.
Qed.

(** Boolean versions of the conditions in ArenaStatements. *)
Definition good_optionsb (o : options) : bool :=
  (0 <? o_normal o) && (o_normal o <? M64) && (o_normal o mod 8 =? 0) &&
  (0 <=? o_huge o) && (o_huge o <? M64) && (o_huge o mod 8 =? 0) &&
  (0 <=? o_init o) && (o_init o <? M64) && (o_init o mod 8 =? 0).

Definition size_okb (n : Z) : bool := (0 <=? n) && (n <=? max_request).
Definition alignment_okb (A al : Z) : bool := ((al =? 8) || (al =? 16) || (al =? 32)) && (al <=? A).

Fixpoint op_okb (A : Z) (o : op) : bool :=
  match o with
  | OAllocate bytes al => size_okb bytes && alignment_okb A al
  | OAllocateCleanup bytes _ _ => size_okb bytes
  | OCreate sz _ _ body =>
      size_okb sz &&
      (fix all (l : list op) : bool := match l with [] => true | x :: r => op_okb A x && all r end) body
  | OCreateArray sz num _ => (0 <? sz) && (0 <=? num) && (sz * num <=? max_request)
  | OOwn _ _ => true
  | OResource bytes al => size_okb bytes && ((al =? 1) || (al =? 2) || (al =? 4) || alignment_okb A al)
  end.

Definition aliveb (s : sys) (i : nat) : bool :=
  match nth_error (s_arenas s) i with Some (Some _) => true | _ => false end.
Definition resource_aliveb (s : sys) (i : nat) : bool :=
  match nth_error (s_arenas s) i with
  | Some (Some a) => match a_resource a with Some j => aliveb s j | None => false end
  | _ => false
  end.

Definition permittedb (A : Z) (s : sys) (o : sop) : bool :=
  match o with
  | SNew opts => good_optionsb opts
  | SOp i o => aliveb s i && op_okb A o && (negb (uses_resource o) || resource_aliveb s i)
  | SReset i => match nth_error (s_arenas s) i with Some (Some a) => 0 <? SpaceAllocated a | _ => false end
  | SMove i | SDestroy i => aliveb s i
  end.

(** Runs the operations, checking each is permitted; also the last result. *)
Fixpoint runp (e : env) (A : Z) (s : sys) (last : Z) (l : list sop) : option (sys * Z) :=
  match l with
  | [] => Some (s, last)
  | o :: r => if permittedb A s o then
                match step e s o with Ok (s', x) => runp e A s' x r | _ => None end
              else None
  end.

Ltac bools := repeat match goal with
  | H : _ && _ = true |- _ => apply andb_prop in H; destruct H
  | H : (_ <? _) = true |- _ => apply Z.ltb_lt in H
  | H : (_ <=? _) = true |- _ => apply Z.leb_le in H
  | H : (_ =? _) = true |- _ => apply Z.eqb_eq in H
  end.

Lemma alignment_okb_ok A al : alignment_okb A al = true -> alignment_ok A al.
Proof.
  unfold alignment_okb, alignment_ok. intros H. bools. split; auto.
  apply orb_prop in H as [H|H]; [apply orb_prop in H as [H|H]|]; bools; auto.
Qed.

Lemma op_okb_ok A : forall o, op_okb A o = true -> op_ok A o.
Proof.
  fix IH 1. intros [bytes al|bytes fn el|sz ty dtor body|sz num ty|obj fn|bytes al] H; simpl in *; unfold size_okb in *; bools; auto.
  - split; [lia|]. now apply alignment_okb_ok.
  - split; [lia|]. clear - IH H0. revert H0. induction body as [|x r IHr]; intros H; [exact I|]. bools. split; [apply IH; assumption|apply IHr; assumption].
  - split; [lia|]. apply orb_prop in H0 as [H0|H0]; [|apply alignment_okb_ok in H0; auto].
    apply orb_prop in H0 as [H0|H0]; [apply orb_prop in H0 as [H0|H0]|]; bools; auto.
Qed.

Lemma aliveb_ok s i : aliveb s i = true -> alive s i.
Proof. unfold aliveb, alive. destruct (nth_error (s_arenas s) i) as [[a|]|]; try discriminate. eauto. Qed.

Lemma permittedb_ok A s o : permittedb A s o = true -> permitted A s o.
Proof.
  destruct o as [o|i o|i|i|i]; cbn [permittedb permitted]; intros H.
  - unfold good_optionsb in H. bools. unfold good_options, word. repeat split; auto; lia.
  - apply andb_prop in H as [H H1]. apply andb_prop in H as [H H2]. split; [now apply aliveb_ok|].
    split; [now apply op_okb_ok|]. intros E. rewrite E in H1. simpl in H1. unfold resource_aliveb in H1.
    destruct (nth_error (s_arenas s) i) as [[a|]|] eqn:Ei; try discriminate.
    destruct (a_resource a) as [j|] eqn:Ej; try discriminate. exists a, j. repeat split; auto. now apply aliveb_ok.
  - destruct (nth_error (s_arenas s) i) as [[a|]|] eqn:Ei; try discriminate. bools. eauto.
  - now apply aliveb_ok.
  - now apply aliveb_ok.
Qed.

Lemma runp_reach e A s last l s' x : reach e A s -> runp e A s last l = Some (s', x) -> reach e A s'.
Proof.
  revert s last. induction l as [|o l IH]; simpl; intros s last HR H.
  - now injection H as <- _.
  - destruct (permittedb A s o) eqn:Ep; [|discriminate]. destruct (step e s o) as [[s1 y]| |] eqn:Es; try discriminate.
    apply (IH s1 y); auto. eapply reach_step; eauto. now apply permittedb_ok.
Qed.

(** After the operations [l], the next operation [o] and its result satisfy [P]. *)
Definition after (e : env) (A : Z) (l : list sop) (P : sys -> Prop) : Prop :=
  exists s x, runp e A init 0 l = Some (s, x) /\ reach e A s /\ P s.

Lemma after_intro e A l (P : sys -> Prop) :
  (match runp e A init 0 l with Some (s, _) => P s | None => False end) -> after e A l P.
Proof.
  destruct (runp e A init 0 l) as [[s x]|] eqn:E; [|easy]. intros H. exists s, x. split; auto. split; auto.
  eapply runp_reach; eauto. apply reach_init.
Qed.

(** Concrete environments: 32-aligned blocks; blocks at 8 modulo 32; a limited supply. *)
Definition env32 : env := {| e_debug := true; e_alloc := bump 0 (2 ^ 60); e_cookie := fun _ => 7 |}.
Definition env8 : env := {| e_debug := true; e_alloc := bump 8 (2 ^ 60); e_cookie := fun _ => 7 |}.
Definition env8_release : env := {| e_debug := false; e_alloc := bump 8 (2 ^ 60); e_cookie := fun _ => 7 |}.
Definition env_small : env := {| e_debug := true; e_alloc := bump 0 4096; e_cookie := fun _ => 7 |}.

Lemma env32_good : good_block_alloc 32 (e_alloc env32).
Proof. apply bump_good; auto; lia. Qed.
Lemma env8_good : good_block_alloc 8 (e_alloc env8).
Proof. apply bump_good; auto; lia. Qed.
Lemma env_small_good : good_block_alloc 32 (e_alloc env_small).
Proof. apply bump_good; auto; lia. Qed.

(** All hooks installed. *)
Definition hooked : options :=
  {| o_normal := 4096; o_huge := 2 ^ 21; o_init := 4096;
     o_on_init := true; o_on_reset := true; o_on_alloc := true; o_on_newblock := true; o_on_destroy := true |}.

(** Two arenas; several blocks; nested construction; cleanups of each kind. *)
Definition busy : list sop :=
  [ SNew hooked; SNew default_options;
    SOp 0 (OAllocate 24 8); SOp 0 (OAllocateCleanup 100 51 0); SOp 1 (OAllocate 7 16);
    SOp 0 (OCreate 40 9 (Some 52) [OAllocate 5 8; OOwn 777 53]);
    SOp 0 (OCreateArray 16 300 9); SOp 0 (OResource 33 2); SOp 1 (OOwn 778 54);
    SOp 0 (OAllocate 600000 32); SOp 0 (OOwn 779 55) ].
