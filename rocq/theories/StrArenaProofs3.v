(** Requests beyond a quarter of the address space. *)
Require Import ZArith List Bool Lia.
From Verif Require Import Base BaseProofs AlignModel BasicSpec BasicProofs ArenaSpec ArenaModel ArenaStatements ArenaProofs ArenaProofs2 ArenaProofs3 ArenaProofs4 ArenaProofs6.
From Verif Require Import StrArenaModel StrArenaStatements.
Import ListNotations.
Open Scope Z_scope.

Section A.
Variables (e : env) (A : Z).
Hypothesis HA : block_alignment A.
Hypothesis HG : good_block_alloc A (e_alloc e).

Lemma big_align n : 0 <= n < 2 ^ 64 - 8 -> n <= align_size n < n + 8.
Proof.
  intros H. unfold align_size, kByteSize.
  rewrite AlignUpTo_eq; [| exists 3; split; [lia|reflexivity] | split; unfold M64; lia | unfold M64; lia].
  pose proof (Z.div_mod (n + 8 - 1) 8 ltac:(lia)). pose proof (Z.mod_pos_bound (n + 8 - 1) 8 ltac:(lia)). lia.
Qed.
Lemma big_request S i j b n : reach e A S -> serves S i j -> nth_error (s_arenas S) j = Some (Some b) ->
  (forall x, In x (a_blocks b) -> b_size x <= 2 ^ 62) -> (forall h size, 2 ^ 62 < size -> e_alloc e h size = None) ->
  max_request < n <= 2 ^ 63 + 2 ^ 61 ->
  exists S' size, step e S (SOp i (OResource n 1)) = Ok (S', 0) /\ s_arenas S' = s_arenas S /\ hist S' = EBlockAlloc j size None :: hist S /\ n < size.
Proof.
  intros HR (a & Ha & Hr & _) Hb HS HN Hn. unfold max_request in Hn. pose proof (reach_inv e A HA HG S HR) as HI.
  destruct (I_arena _ _ _ HI j b Hb) as (nss & HAi).
  cbn [step exec]. rewrite (get_arena_ok S i a Ha). cbn [bind]. rewrite Hr. unfold on_arena. rewrite (get_arena_ok S j b Hb). cbn [bind].
  unfold resource_allocate, allocateAligned. change (Z.max kByteSize 1) with 8.
  pose proof (big_align n ltac:(lia)) as AL. set (need := align_size n) in *.
  assert (E : need_create_new_block e b need 8 = Ok true).
  { unfold need_create_new_block. destruct (a_blocks b) as [|x rest] eqn:Eb; [reflexivity|].
    destruct HAi as [_ F _ _ _]. rewrite Eb in F. inversion F as [|? ns ? ? B1 B2]; subst. destruct B1 as [B1 B2' B3 B4 B5 B6 B7 B8 B9].
    pose proof (HS x (or_introl eq_refl)). unfold has_enough_space, Pos. rewrite (add64_small (b_addr x)) by (unfold M64; lia).
    rewrite AlignPos_ok by (unfold M64; lia). cbn [bind]. pose proof (waste_bounds (b_addr x + b_pos x) 8 ltac:(lia)).
    rewrite (add64_small (b_pos x)) by (unfold M64; lia). rewrite add64_small by (unfold M64; lia).
    destruct (Z.leb_spec (b_pos x + waste_of (b_addr x + b_pos x) 8 + need) (b_limit x)); [lia|reflexivity]. }
  unfold ensure_block. rewrite E. cbn [bind]. unfold newBlock. rewrite kH32. destruct (Z.ltb_spec (M64 - 1 - 32) need); [unfold M64 in *; lia|].
  assert (X : exists size, new_block_size (a_opts b) (match a_blocks b with [] => true | _ => false end) need = Ok size /\ n < size).
  { unfold new_block_size. rewrite kH32, add64_small by (unfold M64; lia). destruct HAi as [O _ _ _ _].
    assert (ON : o_normal (a_opts b) <> 0) by (unfold good_options in O; lia).
    assert (K : forall z, n < Z.max z (need + 32)) by lia.
    destruct (a_blocks b); cbn [negb bind]; [eexists; split; [reflexivity|apply K]|].
    destruct (_ <=? o_normal _); cbn [bind]; [eexists; split; [reflexivity|apply K]|].
    destruct (_ <=? _ / _); cbn [bind].
    - unfold AlignUp. destruct (Z.eqb_spec (o_normal (a_opts b)) 0); [contradiction|]. cbn [bind]. eexists; split; [reflexivity|apply K].
    - destruct (_ && _); cbn [bind]; (eexists; split; [reflexivity|apply K]). }
  destruct X as (size & -> & LT). cbn [bind]. cbv zeta. rewrite HN by lia. cbn [bind]. rewrite Z.eqb_refl. cbn [bind].
  eexists _, size. split; [reflexivity|]. cbn. rewrite upd_same by exact Hb. auto.
Qed.
End A.
