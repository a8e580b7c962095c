(** Property C90: on_arena_allocation and on_arena_newblock hooks that use
    arenas. *)
Require Import ZArith List Bool Lia.
From Verif Require Import Base BaseProofs ArenaSpec ArenaModel ArenaStatements ArenaCases
  ArenaProofs ArenaProofs2 ArenaProofs4 ArenaReentModel ArenaReentSpec ArenaReentProofs ArenaReentProofs2
  ArenaHookModel ArenaHookSpec ArenaHookProofs ArenaHookProofs5 PropArenaHook
  ArenaCallModel ArenaCallSpec ArenaCallProofs ArenaCallProofs2 ArenaCallProofs3.
Import ListNotations.
Open Scope Z_scope.

Section Calls.
Variable e : env.
Variable k : hooks.
Variable c : calls.
Variable A : Z.
Hypothesis HA : block_alignment A.
Hypothesis HG : good_block_alloc A (e_alloc e).

(** C90: with hooks that use nothing the model is the one of C89. *)
Theorem C90_conservative : (forall h i, c_alloc c h i = [] /\ c_block c h i = []) ->
  forall s o, step_c e c k s o = step_h e k s o.
Proof. intros H s o. apply step_c_plain; intros h i; apply (H h i). Qed.

(** C90: whatever on_arena_allocation does with living arenas and
    on_arena_newblock with other living arenas, the operation completes. *)
Theorem C90_progress_partial : forall s o, reach_c e k c A s -> permitted_c A k c s o ->
  exists s' r, step_c e c k s o = Ok (s', r).
Proof.
  intros s o HR HP. destruct (step_c_ok e c A HA HG k s o (reach_c_inv e c A HA HG k s HR) HP) as (s' & r & E & _). eauto.
Qed.

(** C90: and everything an arena promises holds after it. *)
Theorem C90_sound_partial : forall s, reach_c e k c A s -> sound e s.
Proof. intros s HR. exact (inv_sound e A s (reach_c_inv e c A HA HG k s HR)). Qed.

(** C90: the client gets what it asked for, although the hook used the arena in
    between: an aligned range of its own, its cleanup registered; and what
    others had before is untouched. *)
Theorem C90_request_partial : forall s i o, reach_c e k c A s -> permitted_c A k c s (SOp i o) ->
  exists s' r evs, step_c e c k s (SOp i o) = Ok (s', r) /\ reach_c e k c A s' /\
    m_hist (s_mem s') = evs ++ m_hist (s_mem s) /\ Forall request evs /\
    (forall n al, op_range o = Some (n, al) -> r <> 0 ->
       0 < r /\ r mod al = 0 /\ exists j, served_by s i o j /\ In (j, r, n) (live_ranges (m_hist (s_mem s')))) /\
    (forall x, op_cleanup o r = Some x -> r <> 0 -> In x (pending (m_hist (s_mem s')) i)) /\
    (forall x, In x (live_ranges (m_hist (s_mem s))) -> In x (live_ranges (m_hist (s_mem s')))) /\
    (forall j, exists t, pending (m_hist (s_mem s')) j = t ++ pending (m_hist (s_mem s)) j).
Proof.
  intros s i o HR HP. pose proof HP as [((P1 & P2 & P3) & _) HC].
  destruct (exec_c_ok e c A HA HG o i s (reach_c_inv e c A HA HG k s HR) P1 P2 P3 HC) as (s' & r & E & (Q1 & Q2 & Q3) & H1 & H2).
  pose proof Q3 as (evs & Eh & F). exists s', r, evs. split; [exact E|]. split; [eapply rc_step; eauto; exact I|]. split; [exact Eh|].
  split; [exact F|]. split; [exact H1|]. split; [exact H2|]. split; [now apply ranges_ext|].
  intros j. rewrite Eh. exists (registered j evs). apply inner_pending. eapply Forall_impl; [|exact F]. intros x Hx. now left.
Qed.
End Calls.

Print Assumptions C90_conservative.
Print Assumptions C90_progress_partial.
Print Assumptions C90_sound_partial.
Print Assumptions C90_request_partial.

(** ** Cases *)
Definition ever (la lb : nat -> list (nat * op)) : calls := {| c_alloc := fun _ => la; c_block := fun _ => lb |}.

Definition keeps_offb (i : nat) (s : sys) (l : list (nat * op)) : bool :=
  forallb (fun x => negb (fst x =? i)%nat &&
    (negb (uses_resource (snd x)) ||
     match nth_error (s_arenas s) (fst x) with
     | Some (Some a) => match a_resource a with Some j => negb (j =? i)%nat | None => true end
     | _ => true
     end)) l.
Lemma keeps_offb_ok i s l : keeps_offb i s l = true -> keeps_off i s l.
Proof.
  intros H j o Hin. unfold keeps_offb in H. rewrite forallb_forall in H. specialize (H _ Hin). cbn [fst snd] in H.
  apply andb_prop in H as [H1 H2]. apply negb_true_iff, Nat.eqb_neq in H1. split; auto.
  intros Hu a Ha E. rewrite Hu, Ha, E in H2. simpl in H2. rewrite Nat.eqb_refl in H2. discriminate.
Qed.

Section Run.
Variable e : env.
Variable A : Z.
Variables li lr ld : nat -> list (nat * op).
Variable ok : bool.
Variables la lb : nat -> list (nat * op).
Let k := always li lr ld ok.
Let c := ever la lb.

Definition calls_okb (s : sys) : bool :=
  forallb (fun i => negb (aliveb s i) || (may_useb A s (la i) && may_useb A s (lb i) && keeps_offb i s (lb i)))
          (seq 0 (length (s_arenas s))).
Lemma calls_okb_ok s : calls_okb s = true -> calls_ok A c s.
Proof.
  intros H i evs (a & Hi) _. unfold calls_okb in H. rewrite forallb_forall in H.
  assert (L : (i < length (s_arenas s))%nat) by (apply nth_error_Some; congruence).
  specialize (H i (proj2 (in_seq _ _ _) (conj (Nat.le_0_l i) L))).
  assert (AL : aliveb s i = true) by (unfold aliveb; now rewrite Hi). rewrite AL in H. simpl in H.
  apply andb_prop in H as [H H3]. apply andb_prop in H as [H1 H2].
  split; [now apply may_useb_ok|]. split; [now apply may_useb_ok|now apply keeps_offb_ok].
Qed.
Definition permitted_cb (s : sys) (o : sop) : bool :=
  permitted_hb A li lr ld ok s o && match o with SOp _ _ => calls_okb s | _ => true end.
Lemma permitted_cb_ok s o : permitted_cb s o = true -> permitted_c A k c s o.
Proof.
  intros H. apply andb_prop in H as [H1 H2]. split; [now apply permitted_hb_ok|]. destruct o; auto. now apply calls_okb_ok.
Qed.

Fixpoint runc (s : sys) (l : list sop) : option sys :=
  match l with
  | [] => Some s
  | o :: r => if permitted_cb s o then
                match step_c e c k s o with
                | Ok (s', _) => if tameb s s' o then runc s' r else None
                | _ => None
                end
              else None
  end.
Lemma runc_reach l : forall s s', reach_c e k c A s -> runc s l = Some s' -> reach_c e k c A s'.
Proof.
  induction l as [|o l IH]; cbn [runc]; intros s s' HR H; [now injection H as <-|].
  destruct (permitted_cb s o) eqn:Ep; [|discriminate]. destruct (step_c e c k s o) as [[s1 y]| |] eqn:Es; try discriminate.
  destruct (tameb s s1 o) eqn:Et; [|discriminate]. apply (IH s1); auto. eapply rc_step; eauto.
  - now apply permitted_cb_ok.
  - destruct o; simpl in *; auto; destruct (got _ _); auto; discriminate.
Qed.
Definition afterc (l : list sop) (P : sys -> Prop) : Prop :=
  exists s, runc init l = Some s /\ reach_c e k c A s /\ P s.
Lemma afterc_intro l P : match runc init l with Some s => P s | None => False end -> afterc l P.
Proof.
  destruct (runc init l) as [s|] eqn:E; [|easy]. intros H. exists s. split; auto. split; auto. eapply runc_reach; eauto. apply rc_init.
Qed.
End Run.

(** An allocation hook that keeps a record in the arena it reports about, and a
    block hook that keeps one in arena 0 for every other arena. *)
Definition note : nat -> list (nat * op) := fun i => [(i, OAllocateCleanup 24 80 0)].
Definition note0 : nat -> list (nat * op) := fun i => match i with O => [] | _ => [(0%nat, OAllocate 48 8)] end.
Example C90_ex : afterc env32 32 none none none true note note0
  [SNew hooked; SNew hooked; SOp 1 (OAllocate 5000 8); SOp 1 (OAllocateCleanup 100 81 0); SOp 1 (OOwn 777 82)] (fun s =>
  permitted_cb 32 none none none true note note0 s (SOp 1 (OCreate 40 7 (Some 83) [OAllocate 8000 8])) = true /\
  live_ranges (m_hist (s_mem s)) =
    [(1%nat, 13304, 100); (1%nat, 13408, 24); (1%nat, 4128, 5000); (1%nat, 13280, 24); (0%nat, 9184, 48)] /\
  pending (m_hist (s_mem s)) 1 = [(777, 82); (13408, 80); (13304, 81); (13280, 80)]).
Proof. apply afterc_intro. vm_compute. repeat split. Qed.

(** C90 fails for on_arena_newblock hooks that use the arena the block is for
    (finding A12).  A block such a hook makes the arena obtain is lost: it is
    counted in SpaceAllocated() but never given back, ranges in it do not
    belong to the arena any more (check() says NotContain) and cleanups in it
    are never run, not even by the destructor.  When the first block is being
    obtained every allocation of the hook ends so. *)
Definition note_own : nat -> list (nat * op) := fun i => [(i, OAllocateCleanup 24 80 0)].
Theorem C90_newblock_leaks_refuted : afterc env32 32 none none none true none none [SNew hooked] (fun s =>
  permitted_hb 32 none none none true s (SOp 0 (OAllocate 16 8)) = true /\ may_useb 32 s (note_own 0%nat) = true /\
  match step_c env32 (ever none note_own) (always none none none true) s (SOp 0 (OAllocate 16 8)) with
  | Ok (s1, r) =>
      held (m_hist (s_mem s1)) 0 = [(8192, 4096); (4096, 4096)] /\
      pending (m_hist (s_mem s1)) 0 = [(8224, 80)] /\
      match nth_error (s_arenas s1) 0 with
      | Some (Some a) => map span (a_blocks a) = [(4096, 4096)] /\ SpaceAllocated a = 8192 /\
                         cleanups env32 a = Ok 0 /\ check a 8224 = NotContain
      | _ => False
      end /\
      match step_c env32 (ever none none) (always none none none true) s1 (SDestroy 0) with
      | Ok (s2, _) => live_blocks (m_hist (s_mem s2)) = Some [(8192, 4096)] /\ cleanups_run (m_hist (s_mem s2)) = []
      | _ => False
      end
  | _ => False
  end).
Proof. apply afterc_intro. vm_compute. repeat split. Qed.
