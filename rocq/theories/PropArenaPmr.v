(** C101: the memory resources of arenas. *)
Require Import ZArith List Bool.
From Verif Require Import Base ArenaModel ArenaPmrModel ArenaPmrSpec ArenaPmrProofs ArenaPmrProofs2 ArenaPmrProofs3.
Import ListNotations.
Open Scope Z_scope.

(** Constructing, moving and destroying arenas never deletes a resource twice. *)
Theorem C101_progress_partial : forall s o, preach s -> allowed s o -> exists s', pstep s o = Ok s' /\ preach s'.
Proof. exact progress_p. Qed.

(** A resource is not deleted and exactly one arena has it, or it was deleted
    once and none has it. *)
Theorem C101_once_partial : forall s k x, preach s -> nth_error (p_res s) k = Some x ->
  (r_deleted x = 0%nat /\ exists i a, stands s i a (Some k) /\ forall j b, stands s j b (Some k) -> j = i) \/
  (r_deleted x = 1%nat /\ forall j b, ~ stands s j b (Some k)).
Proof. exact once_p. Qed.

(** Once every arena is destroyed, every resource was deleted. *)
Theorem C101_none_left_partial : forall s k x, preach s -> (forall i a r, ~ stands s i a r) ->
  nth_error (p_res s) k = Some x -> r_deleted x = 1%nat.
Proof. exact none_left_p. Qed.

(** What each operation does to the resources of all arenas. *)
Theorem C101_new_partial : forall s addr ok j a r, preach s -> vacant s addr ->
  exists s', pstep s (PNew addr ok) = Ok s' /\
  (stands s' j a r <-> stands s j a r \/ (j = length (p_objs s) /\ a = addr /\ r = if ok then Some (length (p_res s)) else None)).
Proof. exact effect_new_p. Qed.

Theorem C101_move_partial : forall s i a0 r0 addr j a r, preach s -> stands s i a0 r0 -> vacant s addr ->
  exists s', pstep s (PMove i addr) = Ok s' /\ p_res s' = p_res s /\
  (stands s' j a r <-> (j <> i /\ stands s j a r) \/ (j = i /\ a = a0 /\ r = None) \/ (j = length (p_objs s) /\ a = addr /\ r = r0)).
Proof. exact effect_move_p. Qed.

Theorem C101_destroy_partial : forall s i a0 r0, preach s -> stands s i a0 r0 ->
  exists s', pstep s (PDestroy i) = Ok s' /\
  (forall j a r, stands s' j a r <-> j <> i /\ stands s j a r) /\
  (forall k x, nth_error (p_res s) k = Some x -> exists x', nth_error (p_res s') k = Some x' /\ r_arena x' = r_arena x /\
     (r0 = Some k -> r_deleted x' = 1%nat) /\ (r0 <> Some k -> r_deleted x' = r_deleted x)).
Proof. exact effect_destroy_p. Qed.

(** get_memory_resource() returns the arena's resource, which can be read. *)
Theorem C101_get_partial : forall debug s i a k, preach s -> stands s i a (Some k) ->
  get_memory_resource debug s i = Ok (Some k) /\ exists b, get_arena_of s (HArena k) = Ok (Some b).
Proof. exact get_res_p. Qed.

(** The resource of an arena that was not moved to names that arena. *)
Theorem C101_own_partial : forall s i a k, preach s -> stands s i a (Some k) -> original s i ->
  get_arena_of s (HArena k) = Ok (Some a).
Proof. exact own_p. Qed.

(** Resources of such arenas are equal exactly when the arenas are the same; a
    resource the client made is equal to the arena's exactly when made for that
    arena; one of another class never is. *)
Theorem C101_equal_partial : forall s i a k j b q, preach s ->
  stands s i a (Some k) -> original s i -> stands s j b (Some q) -> original s j ->
  do_is_equal s (HArena k) (HArena q) = Ok (Nat.eqb i j) /\
  (forall c, do_is_equal s (HArena k) (HOwn c) = Ok (Z.eqb a c)) /\
  do_is_equal s (HArena k) HForeign = Ok false.
Proof. exact equal_p. Qed.

(** Of all arenas, also those moved to: the resource names the address where the
    first of the arenas it came through was constructed, and resources are equal
    exactly if these addresses are. *)
Theorem C101_origin : forall s i a k b, preach s -> stands s i a (Some k) ->
  (get_arena_of s (HArena k) = Ok (Some b) <-> born s i b).
Proof. exact origin_p. Qed.
Theorem C101_equal_origin : forall s i a k j b q, preach s -> stands s i a (Some k) -> stands s j b (Some q) ->
  exists v, do_is_equal s (HArena k) (HArena q) = Ok v /\ (v = true <-> exists c, born s i c /\ born s j c).
Proof. exact equal_origin_p. Qed.

(** Equality is an equivalence among readable resources of arenas. *)
Theorem C101_self_partial : forall s i a k, preach s -> stands s i a (Some k) -> do_is_equal s (HArena k) (HArena k) = Ok true.
Proof. exact self_p. Qed.
Theorem C101_symmetric_partial : forall s g h v, do_is_equal s g h = Ok v -> do_is_equal s h g = Ok v.
Proof. exact sym_p. Qed.
Theorem C101_transitive_partial : forall s f g h,
  do_is_equal s f g = Ok true -> do_is_equal s g h = Ok true -> do_is_equal s f h = Ok true.
Proof. exact trans_p. Qed.

(** ** Examples *)
Definition run (l : list pop) : res pmr := fold_left (fun s o => do x <- s; pstep x o) l (Ok pinit).

Lemma vacant_dec s addr : forallb (fun o => negb (o_alive o && (o_addr o =? addr))) (p_objs s) = true -> vacant s addr.
Proof.
  intros H i r (o & E & A & B & _). rewrite forallb_forall in H. specialize (H o (nth_error_In _ _ E)).
  rewrite A, B, Z.eqb_refl in H. discriminate.
Qed.
Ltac vac := apply vacant_dec; reflexivity.
Ltac st := eexists; split; [reflexivity|repeat split; reflexivity].

Definition two : pmr :=
  {| p_objs := [{| o_addr := 4096; o_alive := true; o_res := Some 0%nat; o_moved_from := None |};
                {| o_addr := 8192; o_alive := true; o_res := Some 1%nat; o_moved_from := None |}];
     p_res := [{| r_arena := 4096; r_deleted := 0 |}; {| r_arena := 8192; r_deleted := 0 |}] |}.

Lemma two_reach : preach two.
Proof.
  apply (pr_step (p_new pinit 4096 true) (PNew 8192 true)); [|vac|reflexivity].
  apply (pr_step pinit (PNew 4096 true)); [constructor|vac|reflexivity].
Qed.

(** Two arenas: their resources differ; a client's own resource for the first
    is equal to the first arena's. *)
Example C101_ex : preach two /\ stands two 0 4096 (Some 0%nat) /\ stands two 1 8192 (Some 1%nat) /\ original two 0 /\ original two 1 /\
  do_is_equal two (HArena 0) (HArena 1) = Ok false /\ do_is_equal two (HArena 0) (HOwn 4096) = Ok true.
Proof. split; [apply two_reach|]. repeat split; try reflexivity; try st; eexists; split; reflexivity. Qed.

(** An arena moved to a new place, both destroyed: its resource is deleted once. *)
Example C101_moved_ex : exists s, run [PNew 4096 true; PMove 0 8192; PDestroy 0; PDestroy 1] = Ok s /\
  map r_deleted (p_res s) = [1%nat].
Proof. eexists. split; reflexivity. Qed.

(** Uses the model calls undefined: destroying or moving a destroyed arena, and reading or
    deleting a resource again after its arena was destroyed. *)
Example C101_gone_ex : exists s, run [PNew 4096 true; PDestroy 0] = Ok s /\ pstep s (PDestroy 0) = Undef /\ pstep s (PMove 0 8192) = Undef /\
  get_arena_of s (HArena 0) = Undef /\ p_delete (p_res s) (Some 0%nat) = Undef.
Proof. eexists. repeat split; reflexivity. Qed.

(** The arena at 4096 is moved to 8192 and destroyed, and another is made at
    4096. *)
Definition reused : pmr :=
  {| p_objs := [{| o_addr := 4096; o_alive := false; o_res := None; o_moved_from := None |};
                {| o_addr := 8192; o_alive := true; o_res := Some 0%nat; o_moved_from := Some 0%nat |};
                {| o_addr := 4096; o_alive := true; o_res := Some 1%nat; o_moved_from := None |}];
     p_res := [{| r_arena := 4096; r_deleted := 0 |}; {| r_arena := 4096; r_deleted := 0 |}] |}.

Lemma reused_reach : preach reused.
Proof.
  assert (H1 : preach (p_new pinit 4096 true)) by (apply (pr_step pinit (PNew 4096 true)); [constructor|vac|reflexivity]).
  eassert (H2 : preach _).
  { eapply (pr_step (p_new pinit 4096 true) (PMove 0 8192)); [exact H1|split; [exists 4096, (Some 0%nat); st|vac]|reflexivity]. }
  eassert (H3 : preach _).
  { eapply (pr_step _ (PDestroy 0)); [exact H2|exists 4096, None; st|reflexivity]. }
  eapply (pr_step _ (PNew 4096 true)); [exact H3|vac|reflexivity].
Qed.

(** Full statement: the resources of two arenas are equal only if the arenas are
    the same.  Not so after a move. *)
Theorem C101_equal_refuted : exists s i a k j b q, preach s /\ stands s i a (Some k) /\ stands s j b (Some q) /\ i <> j /\
  do_is_equal s (HArena k) (HArena q) = Ok true.
Proof.
  exists reused, 1%nat, 8192, 0%nat, 2%nat, 4096, 1%nat. split; [apply reused_reach|].
  split; [st|]. split; [st|]. split; [discriminate|]. reflexivity.
Qed.

Example C101_origin_ex : stands reused 1 8192 (Some 0%nat) /\ born reused 1 4096 /\ born reused 2 4096 /\ ~ born reused 1 8192.
Proof.
  assert (B : born reused 1 4096).
  { eapply born_moved; [reflexivity|reflexivity|]. eapply (born_here reused 0 _ eq_refl). reflexivity. }
  split; [st|]. split; [exact B|]. split; [eapply (born_here reused 2 _ eq_refl); reflexivity|].
  intros H. pose proof (born_fun _ _ _ _ B H). discriminate.
Qed.

(** Full statement: the resource of an arena names that arena. *)
Theorem C101_own_refuted : exists s i a k b, preach s /\ stands s i a (Some k) /\ get_arena_of s (HArena k) = Ok (Some b) /\ b <> a.
Proof.
  exists reused, 1%nat, 8192, 0%nat, 4096. split; [apply reused_reach|]. split; [st|]. split; [reflexivity|discriminate].
Qed.

(** Full statement: every arena has a resource.  Not when operator new failed. *)
Theorem C101_get_refuted : exists s i a, preach s /\ stands s i a None /\ original s i /\
  get_memory_resource true s i = AssertFail /\ get_memory_resource false s i = Ok None.
Proof.
  exists (p_new pinit 4096 false), 0%nat, 4096.
  split; [apply (pr_step pinit (PNew 4096 false)); [constructor|vac|reflexivity]|].
  split; [st|]. split; [eexists; split; reflexivity|]. split; reflexivity.
Qed.

Print Assumptions C101_progress_partial.
Print Assumptions C101_once_partial.
Print Assumptions C101_none_left_partial.
Print Assumptions C101_new_partial.
Print Assumptions C101_move_partial.
Print Assumptions C101_destroy_partial.
Print Assumptions C101_get_partial.
Print Assumptions C101_own_partial.
Print Assumptions C101_equal_partial.
Print Assumptions C101_origin.
Print Assumptions C101_equal_origin.
Print Assumptions C101_self_partial.
Print Assumptions C101_symmetric_partial.
Print Assumptions C101_transitive_partial.
Print Assumptions C101_equal_refuted.
Print Assumptions C101_own_refuted.
Print Assumptions C101_get_refuted.
