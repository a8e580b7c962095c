(** Property C83: cleanups that use arenas, among them the one whose Reset() or
    destructor runs them. *)
Require Import ZArith List Bool Lia.
From Verif Require Import Base BaseProofs ArenaSpec ArenaModel ArenaStatements ArenaCases
  ArenaProofs ArenaProofs4 ArenaReentModel ArenaReentSpec ArenaReentProofs2 ArenaReentProofs3 ArenaReentProofs4.
Import ListNotations.
Open Scope Z_scope.

Section Reent.
Variable e : env.
Variable A : Z.
Variable w : script.
Hypothesis HA : block_alignment A.
Hypothesis HG : good_block_alloc A (e_alloc e).

(** C83: without such cleanups the model is the one of the other properties. *)
Theorem C83_conservative : (forall el fn, w el fn = []) -> forall s o, step_r e w s o = step e s o.
Proof. exact (step_r_plain e w). Qed.

(** C83: if only cleanups kept in the newest block use arenas, the destructor
    completes, runs exactly the cleanups pending when it was called (not those
    registered meanwhile), gives back every block held when it was called, and
    keeps - for ever - exactly the blocks obtained meanwhile. *)
Theorem C83_destroy_partial : forall s i a b rest,
  reach e A s -> script_ok A w s -> nth_error (s_arenas s) i = Some (Some a) ->
  a_blocks a = b :: rest -> newest_only w (m_hist (s_mem s)) i b ->
  exists s' evs, step_r e w s (SDestroy i) = Ok (s', 0) /\
    m_hist (s_mem s') = evs ++ m_hist (s_mem s) /\
    cleanups_run evs = pending (m_hist (s_mem s)) i /\
    held (m_hist (s_mem s')) i = got i evs /\
    (exists L, live_blocks (m_hist (s_mem s')) = Some L) /\ others_follow i s s' evs.
Proof.
  intros s i a b rest HR HS. apply (destroy_r_ok e A w HA HG); auto. exact (reach_inv e A HA HG s HR).
Qed.

(** C83: Reset() of an arena with one block, whose cleanups may use any arena:
    it completes, runs exactly the cleanups pending when it was called, and
    the arena holds its block and those obtained meanwhile, and says so. *)
Theorem C83_reset_one : forall s i a b,
  reach e A s -> script_ok A w s -> nth_error (s_arenas s) i = Some (Some a) -> a_blocks a = [b] ->
  exists s' r a' evs, step_r e w s (SReset i) = Ok (s', r) /\
    m_hist (s_mem s') = evs ++ m_hist (s_mem s) /\
    cleanups_run evs = pending (m_hist (s_mem s)) i /\
    nth_error (s_arenas s') i = Some (Some a') /\
    map (fun b => (b_addr b, b_size b)) (a_blocks a') = got i evs ++ [(b_addr b, b_size b)] /\
    SpaceAllocated a' = sizes (got i evs ++ [(b_addr b, b_size b)]) /\
    held (m_hist (s_mem s')) i = got i evs ++ [(b_addr b, b_size b)] /\
    (exists L, live_blocks (m_hist (s_mem s')) = Some L) /\ others_follow i s s' evs.
Proof.
  intros s i a b HR HS Hi Eb. exact (Reset_r_one e A w HA HG s i a b (reach_inv e A HA HG s HR) HS Hi Eb).
Qed.

(** C83: Reset() of an arena with several blocks, if only cleanups kept in the
    newest block use arenas: the chain is the oldest block alone, and the
    blocks obtained meanwhile are held but in no chain. *)
Theorem C83_reset_partial : forall s i a b mid o,
  reach e A s -> script_ok A w s -> nth_error (s_arenas s) i = Some (Some a) ->
  a_blocks a = b :: mid ++ [o] -> newest_only w (m_hist (s_mem s)) i b ->
  exists s' r a' evs, step_r e w s (SReset i) = Ok (s', r) /\
    m_hist (s_mem s') = evs ++ m_hist (s_mem s) /\
    cleanups_run evs = pending (m_hist (s_mem s)) i /\
    nth_error (s_arenas s') i = Some (Some a') /\
    map (fun b => (b_addr b, b_size b)) (a_blocks a') = [(b_addr o, b_size o)] /\
    SpaceAllocated a' = sizes [(b_addr o, b_size o)] /\
    held (m_hist (s_mem s')) i = got i evs ++ [(b_addr o, b_size o)] /\
    (exists L, live_blocks (m_hist (s_mem s')) = Some L) /\ others_follow i s s' evs.
Proof.
  intros s i a b mid o HR HS Hi Eb HN. exact (Reset_r_more e A w HA HG s i a b mid o (reach_inv e A HA HG s HR) HS Hi Eb HN).
Qed.

(** C83: Reset() of any number of blocks, if only cleanups kept in the oldest
    block use arenas: that block is in the chain already, so no block is lost. *)
Theorem C83_reset_oldest_partial : forall s i a front o,
  reach e A s -> script_ok A w s -> nth_error (s_arenas s) i = Some (Some a) ->
  a_blocks a = front ++ [o] -> oldest_only w (m_hist (s_mem s)) i o ->
  exists s' a' evs, step_r e w s (SReset i) = Ok (s', SpaceAllocated a) /\
    m_hist (s_mem s') = evs ++ m_hist (s_mem s) /\
    cleanups_run evs = pending (m_hist (s_mem s)) i /\
    nth_error (s_arenas s') i = Some (Some a') /\
    map (fun b => (b_addr b, b_size b)) (a_blocks a') = got i evs ++ [(b_addr o, b_size o)] /\
    SpaceAllocated a' = sizes (got i evs ++ [(b_addr o, b_size o)]) /\
    held (m_hist (s_mem s')) i = got i evs ++ [(b_addr o, b_size o)] /\
    (exists L, live_blocks (m_hist (s_mem s')) = Some L) /\ others_follow i s s' evs.
Proof.
  intros s i a front o HR HS Hi Eb HO. exact (Reset_r_oldest e A w HA HG s i a front o (reach_inv e A HA HG s HR) HS Hi Eb HO).
Qed.

(** C83: an operation called by a cleanup has undefined behaviour if an arena
    it uses has a newest block that was given back, or reads one given back to
    tell its hook of a new block; else it is the operation of the other
    properties. *)
Theorem C83_stale : forall o i s,
  ((exists j, uses s i o j /\ stale_last s j) -> exec_live e o i s = Undef) /\
  (forall s' r, exec e o i s = Ok (s', r) -> (exists j, uses s i o j /\ stale_walk s s' j) -> exec_live e o i s = Undef) /\
  ((forall j, uses s i o j -> ~ stale_last s j) ->
   (forall s' r, exec e o i s = Ok (s', r) -> forall j, uses s i o j -> ~ stale_walk s s' j) ->
   exec_live e o i s = (do (s', _) <- exec e o i s; Ok s')).
Proof.
  intros o i s. exact (conj (exec_live_stale e o i s) (conj (fun s' r => exec_live_walk e o i s s' r) (exec_live_fresh e o i s))).
Qed.
End Reent.

Print Assumptions C83_stale.
Print Assumptions C83_conservative.
Print Assumptions C83_destroy_partial.
Print Assumptions C83_reset_one.
Print Assumptions C83_reset_partial.
Print Assumptions C83_reset_oldest_partial.

(** ** Cases *)

(** Cleanup 51 allocates 50 bytes from arena 0, cleanup 53 registers another
    cleanup and allocates 8000 bytes; all others use nothing. *)
Definition demo : script := fun el fn =>
  if fn =? 51 then [(0%nat, OAllocate 50 8)]
  else if fn =? 53 then [(0%nat, OOwn 999 60); (0%nat, OAllocate 8000 8)]
  else [].

Lemma demo_ok s : aliveb s 0 = true -> script_ok 32 demo s.
Proof.
  intros Ha. apply aliveb_ok in Ha.
  intros el fn j o. unfold demo. destruct (fn =? 51); [|destruct (fn =? 53)]; simpl.
  - intros [H|[]]. inversion H; subst. split; auto. split; [|discriminate].
    simpl. unfold max_request, alignment_ok. lia.
  - intros [H|[H|[]]]; inversion H; subst; (split; [auto|]; split; [|discriminate]); simpl; auto.
    unfold max_request, alignment_ok. lia.
  - intros [].
Qed.

(** The conditions of the theorems, to be computed. *)
Definition shape (s : sys) (n : nat) : bool :=
  match nth_error (s_arenas s) 0 with Some (Some a) => (length (a_blocks a) =? n)%nat | _ => false end.
Definition quiet_older (w : script) (s : sys) : bool :=
  match nth_error (s_arenas s) 0 with
  | Some (Some a) =>
      match a_blocks a with
      | b :: _ => forallb (fun x => match w (fst x) (snd x) with [] => true | _ => false end)
                    (skipn (Z.to_nat ((b_size b - b_limit b) / 16)) (pending (m_hist (s_mem s)) 0))
      | [] => false
      end
  | _ => false
  end.

Lemma quiet_older_ok w s : quiet_older w s = true ->
  exists a b rest, nth_error (s_arenas s) 0 = Some (Some a) /\ a_blocks a = b :: rest /\ newest_only w (m_hist (s_mem s)) 0 b.
Proof.
  unfold quiet_older. destruct (nth_error (s_arenas s) 0) as [[a|]|]; try discriminate.
  destruct (a_blocks a) as [|b rest] eqn:E; [discriminate|]. intro H. exists a, b, rest.
  split; [reflexivity|]. split; [exact E|]. intros p1 p2 Ep L el fn Hin.
  rewrite <- L, Z.mul_comm, Z.div_mul, Nat2Z.id in H by lia. rewrite Ep, skipn_app in H.
  rewrite skipn_all, Nat.sub_diag in H. simpl in H. rewrite forallb_forall in H. specialize (H _ Hin). simpl in H.
  destruct (w el fn); [reflexivity|discriminate].
Qed.

Lemma after_with e A l (B : sys -> bool) (P Q : sys -> Prop) : (forall s, B s = true -> P s) ->
  match runp e A init 0 l with Some (s, _) => B s = true /\ Q s | None => False end ->
  after e A l (fun s => P s /\ Q s).
Proof. intros HB H. apply after_intro. destruct (runp e A init 0 l) as [[s x]|]; [|easy]. destruct H. auto. Qed.

(** One block; the cleanups obtain another one, which stays. *)
Example C83_reset_one_ex : after env32 32 [SNew hooked; SOp 0 (OOwn 777 53); SOp 0 (OAllocateCleanup 100 51 0)] (fun s =>
  script_ok 32 demo s /\ shape s 1 = true /\
  match step_r env32 demo s (SReset 0) with
  | Ok (s', r) =>
      cleanups_run (m_hist (s_mem s')) = [(4128, 51); (777, 53)] /\
      held (m_hist (s_mem s')) 0 = [(8192, 8192); (4096, 4096)] /\
      pending (m_hist (s_mem s)) 0 = [(4128, 51); (777, 53)] /\
      match nth_error (s_arenas s') 0 with
      | Some (Some a) => SpaceAllocated a = 12288 /\ map b_pos (a_blocks a) = [8032; 32]
      | _ => False
      end
  | _ => False
  end).
Proof. apply (after_with _ _ _ _ _ _ demo_ok). vm_compute. repeat split. Qed.

(** Two blocks, and the cleanup using the arena is in the newest one. *)
Example C83_newest_ex : after env32 32
  [SNew hooked; SOp 0 (OOwn 777 52); SOp 0 (OAllocate 5000 8); SOp 0 (OAllocateCleanup 100 51 0)] (fun s =>
  (script_ok 32 demo s /\
   exists a b rest, nth_error (s_arenas s) 0 = Some (Some a) /\ a_blocks a = b :: rest /\
     newest_only demo (m_hist (s_mem s)) 0 b) /\ shape s 2 = true /\
  match step_r env32 demo s (SReset 0), step_r env32 demo s (SDestroy 0) with
  | Ok (s1, _), Ok (s2, _) =>
      held (m_hist (s_mem s1)) 0 = [(4096, 4096)] /\ live_blocks (m_hist (s_mem s2)) = Some [] /\
      cleanups_run (m_hist (s_mem s1)) = pending (m_hist (s_mem s)) 0 /\
      cleanups_run (m_hist (s_mem s2)) = pending (m_hist (s_mem s)) 0
  | _, _ => False
  end).
Proof.
  apply (after_with _ _ _ (fun s => aliveb s 0 && quiet_older demo s)).
  - intros s H. apply andb_prop in H as [H1 H2]. split; [apply demo_ok, H1|apply quiet_older_ok, H2].
  - vm_compute. repeat split.
Qed.

(** Two blocks, and the cleanup using the arena is in the oldest one; it makes
    the arena obtain a block, which stays in the chain. *)
Definition quiet_newer (w : script) (s : sys) : bool :=
  match nth_error (s_arenas s) 0 with
  | Some (Some a) =>
      match rev (a_blocks a) with
      | o :: _ => let p := pending (m_hist (s_mem s)) 0 in
          forallb (fun x => match w (fst x) (snd x) with [] => true | _ => false end)
            (firstn (length p - Z.to_nat ((b_size o - b_limit o) / 16)) p)
      | [] => false
      end
  | _ => false
  end.
Lemma quiet_newer_ok w s : quiet_newer w s = true ->
  exists a front o, nth_error (s_arenas s) 0 = Some (Some a) /\ a_blocks a = front ++ [o] /\ oldest_only w (m_hist (s_mem s)) 0 o.
Proof.
  unfold quiet_newer. destruct (nth_error (s_arenas s) 0) as [[a|]|]; try discriminate.
  destruct (rev (a_blocks a)) as [|o r] eqn:E; [discriminate|]. intro H. exists a, (rev r), o.
  split; [reflexivity|]. split; [rewrite <- (rev_involutive (a_blocks a)), E; reflexivity|]. intros p1 p2 Ep L el fn Hin.
  cbv zeta in H. rewrite <- L, Z.mul_comm, Z.div_mul, Nat2Z.id in H by lia.
  rewrite Ep, app_length, Nat.add_sub, firstn_app, Nat.sub_diag, firstn_all in H. simpl in H. rewrite app_nil_r in H.
  rewrite forallb_forall in H. specialize (H _ Hin). simpl in H. destruct (w el fn); [reflexivity|discriminate].
Qed.

Example C83_oldest_ex : after env32 32
  [SNew hooked; SOp 0 (OOwn 777 53); SOp 0 (OAllocate 5000 8); SOp 0 (OAllocateCleanup 100 52 0)] (fun s =>
  (script_ok 32 demo s /\
   exists a front o, nth_error (s_arenas s) 0 = Some (Some a) /\ a_blocks a = front ++ [o] /\
     oldest_only demo (m_hist (s_mem s)) 0 o) /\ shape s 2 = true /\
  match step_r env32 demo s (SReset 0) with
  | Ok (s', _) =>
      cleanups_run (m_hist (s_mem s')) = pending (m_hist (s_mem s)) 0 /\ length (pending (m_hist (s_mem s)) 0) = 2%nat /\
      length (held (m_hist (s_mem s')) 0) = 2%nat /\ shape s' 2 = true
  | _ => False
  end).
Proof.
  apply (after_with _ _ _ (fun s => aliveb s 0 && quiet_newer demo s)).
  - intros s H. apply andb_prop in H as [H1 H2]. split; [apply demo_ok, H1|apply quiet_newer_ok, H2].
  - vm_compute. repeat split.
Qed.

(** C83 fails in three ways.

    A cleanup kept in an older block allocates: the destructor has already
    given the newest block back, but _last_block still points to it
    (arena.hpp:616-632; finding A9).  The same in Reset() with three blocks. *)
Theorem C83_older_refuted :
  after env32 32 [SNew hooked; SOp 0 (OAllocateCleanup 100 51 0); SOp 0 (OAllocate 5000 8)] (fun s =>
    script_ok 32 demo s /\ permittedb 32 s (SDestroy 0) = true /\ step_r env32 demo s (SDestroy 0) = Undef) /\
  after env32 32 [SNew hooked; SOp 0 (OAllocate 8 8); SOp 0 (OAllocate 5000 8); SOp 0 (OAllocateCleanup 100 51 0); SOp 0 (OAllocate 600000 8)] (fun s =>
    script_ok 32 demo s /\ permittedb 32 s (SReset 0) = true /\ step_r env32 demo s (SReset 0) = Undef).
Proof.
  split; apply (after_with _ _ _ _ _ _ demo_ok); vm_compute; repeat split.
Qed.

(** A cleanup that needs a new block while the destructor runs: no arena is
    left, the block is never given back. *)
Theorem C83_leak_refuted : after env32 32 [SNew hooked; SOp 0 (OOwn 777 53)] (fun s =>
  script_ok 32 demo s /\
  match step_r env32 demo s (SDestroy 0) with
  | Ok (s', _) => s_arenas s' = [None] /\ live_blocks (m_hist (s_mem s')) = Some [(8192, 8192)]
  | _ => False
  end).
Proof. apply (after_with _ _ _ _ _ _ demo_ok). vm_compute. repeat split. Qed.

(** A cleanup registered by a cleanup is never run, although addCleanup
    reported success: neither by this Reset() nor by the destructor. *)
Theorem C83_lost_cleanup_refuted : after env32 32 [SNew hooked; SOp 0 (OOwn 777 53)] (fun s =>
  match run_r env32 demo s [SReset 0; SDestroy 0] with
  | Ok s' => In (CRegister 0 999 60) (m_hist (s_mem s')) /\ ~ In (999, 60) (cleanups_run (m_hist (s_mem s')))
  | _ => False
  end).
Proof.
  apply after_intro. vm_compute. split; [tauto|]. intros [H|[]]. discriminate.
Qed.
