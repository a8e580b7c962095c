(** Property C83, continued: cleanups that use other arenas than the one whose
    Reset() or destructor runs them, wherever they are kept. *)
Require Import ZArith List Bool Lia.
From Verif Require Import Base BaseProofs ArenaSpec ArenaModel ArenaStatements ArenaCases ArenaProofs
  ArenaReentModel ArenaReentSpec ArenaHookModel ArenaHookSpec ArenaCallModel ArenaCallSpec ArenaElseSpec
  ArenaHookProofs5 ArenaElseProofs3 PropArenaHook PropArenaCall.
Import ListNotations.
Open Scope Z_scope.

Section Else.
Variable e : env.
Variable A : Z.
Variable w : script.
Hypothesis HA : block_alignment A.
Hypothesis HG : good_block_alloc A (e_alloc e).

(** C83: whatever a program does whose cleanups keep off the arena that runs
    them, every call completes ... *)
Theorem C83_elsewhere_progress_partial : forall s o,
  reach_e e w A s -> permitted_e A w s o -> exists s' r, step_r e w s o = Ok (s', r).
Proof.
  intros s o HR HP. destruct (step_e_ok e A w HA HG s o (reach_e_inv e A w HA HG s HR) HP) as (s' & r & E & _). eauto.
Qed.

(** ... and everything holds that holds without such cleanups. *)
Theorem C83_elsewhere_sound_partial : forall s, reach_e e w A s -> sound e s.
Proof. intros s HR. exact (inv_sound e A s (reach_e_inv e A w HA HG s HR)). Qed.

(** C83: the destructor runs exactly the cleanups pending when it was called,
    gives every block back, and the other arenas have what they had and what
    they obtained meanwhile. *)
Theorem C83_elsewhere_destroy_partial : forall s i a,
  reach_e e w A s -> nth_error (s_arenas s) i = Some (Some a) -> elsewhere A w s i ->
  exists s' evs, step_r e w s (SDestroy i) = Ok (s', 0) /\
    m_hist (s_mem s') = evs ++ m_hist (s_mem s) /\
    cleanups_run evs = pending (m_hist (s_mem s)) i /\
    got i evs = [] /\ held (m_hist (s_mem s')) i = [] /\ others_follow i s s' evs.
Proof.
  intros s i a HR Hi HE.
  destruct (destroy_else e A w HA HG s i a (reach_e_inv e A w HA HG s HR) Hi HE) as (s' & evs & H1 & H2 & H3 & H4 & H5 & H6 & _).
  exists s', evs. repeat split; assumption.
Qed.

(** C83: Reset() likewise; it gives back every block but the oldest, and
    returns what SpaceAllocated() was. *)
Theorem C83_elsewhere_reset_partial : forall s i a front o,
  reach_e e w A s -> nth_error (s_arenas s) i = Some (Some a) -> a_blocks a = front ++ [o] -> elsewhere A w s i ->
  exists s' a' evs, step_r e w s (SReset i) = Ok (s', SpaceAllocated a) /\
    m_hist (s_mem s') = evs ++ m_hist (s_mem s) /\
    cleanups_run evs = pending (m_hist (s_mem s)) i /\ got i evs = [] /\
    nth_error (s_arenas s') i = Some (Some a') /\
    map (fun b => (b_addr b, b_size b)) (a_blocks a') = [(b_addr o, b_size o)] /\
    SpaceAllocated a' = b_size o /\ held (m_hist (s_mem s')) i = [(b_addr o, b_size o)] /\ others_follow i s s' evs.
Proof.
  intros s i a front o HR Hi Eb HE.
  destruct (reset_else e A w HA HG s i a front o (reach_e_inv e A w HA HG s HR) Hi Eb HE)
    as (s' & a' & evs & H1 & H2 & H3 & H4 & H5 & H6 & H7 & H8 & H9 & _).
  exists s', a', evs. repeat split; assumption.
Qed.
End Else.

Print Assumptions C83_elsewhere_progress_partial.
Print Assumptions C83_elsewhere_sound_partial.
Print Assumptions C83_elsewhere_destroy_partial.
Print Assumptions C83_elsewhere_reset_partial.

(** ** Cases *)
Definition elsewhereb (A : Z) (w : script) (s : sys) (i : nat) : bool :=
  forallb (fun x => may_useb A s (w (fst x) (snd x)) && keeps_offb i s (w (fst x) (snd x))) (pending (m_hist (s_mem s)) i).
Lemma elsewhereb_ok A w s i : elsewhereb A w s i = true -> elsewhere A w s i.
Proof.
  intros H el fn Hin. unfold elsewhereb in H. rewrite forallb_forall in H. specialize (H _ Hin). cbn [fst snd] in H.
  apply andb_prop in H as [H1 H2]. split; [now apply may_useb_ok|now apply keeps_offb_ok].
Qed.

Fixpoint rune (e : env) (w : script) (A : Z) (s : sys) (l : list sop) : option sys :=
  match l with
  | [] => Some s
  | o :: r =>
      if permittedb A s o && match o with SReset i | SDestroy i => elsewhereb A w s i | _ => true end then
        match step_r e w s o with Ok (s', _) => rune e w A s' r | _ => None end
      else None
  end.
Lemma rune_ok e w A l : forall s s', reach_e e w A s -> rune e w A s l = Some s' -> reach_e e w A s'.
Proof.
  induction l as [|o l IH]; intros s s' HR H; simpl in H; [inversion H; subst; auto|].
  destruct (permittedb A s o && _) eqn:Ep; [|discriminate]. apply andb_prop in Ep as [E1 E2].
  destruct (step_r e w s o) as [[s1 r]| |] eqn:Es; try discriminate. apply (IH s1); auto.
  apply (re_step e w A s o s1 r); auto. split; [now apply permittedb_ok|]. destruct o; auto; now apply elsewhereb_ok.
Qed.

Definition after_e (e : env) (w : script) (A : Z) (l : list sop) (P : sys -> Prop) : Prop :=
  exists s, rune e w A init l = Some s /\ reach_e e w A s /\ P s.
Lemma after_e_intro e w A l (P : sys -> Prop) :
  match rune e w A init l with Some s => P s | None => False end -> after_e e w A l P.
Proof.
  destruct (rune e w A init l) as [s|] eqn:E; [|easy]. intros H. exists s. repeat split; auto.
  apply (rune_ok e w A l init); [constructor|exact E].
Qed.

(** Cleanup 51 takes 50 bytes of arena 1, cleanup 53 hands an object over to
    arena 1 and takes 8000 bytes of it. *)
Definition notes : script := fun el fn =>
  if fn =? 51 then [(1%nat, OAllocate 50 8)]
  else if fn =? 53 then [(1%nat, OOwn 999 60); (1%nat, OAllocate 8000 8)]
  else [].

(** Three blocks of arena 0, each keeping such a cleanup; arena 1 gets two
    blocks meanwhile. *)
Definition three_blocks : list sop :=
  [SNew hooked; SNew hooked; SOp 0 (OOwn 777 53); SOp 0 (OAllocate 5000 8); SOp 0 (OOwn 778 51);
   SOp 0 (OAllocate 600000 8); SOp 0 (OAllocateCleanup 100 51 0)].

Example C83_elsewhere_ex : after_e env32 notes 32 three_blocks (fun s =>
  elsewhereb 32 notes s 0 = true /\ length (pending (m_hist (s_mem s)) 0) = 3%nat /\
  match nth_error (s_arenas s) 0 with Some (Some a) => length (a_blocks a) = 3%nat | _ => False end /\
  match step_r env32 notes s (SReset 0), step_r env32 notes s (SDestroy 0) with
  | Ok (s1, _), Ok (s2, _) =>
      cleanups_run (m_hist (s_mem s1)) = pending (m_hist (s_mem s)) 0 /\
      cleanups_run (m_hist (s_mem s2)) = pending (m_hist (s_mem s)) 0 /\
      length (held (m_hist (s_mem s1)) 0) = 1%nat /\ held (m_hist (s_mem s2)) 0 = [] /\
      length (held (m_hist (s_mem s1)) 1) = 2%nat /\ length (held (m_hist (s_mem s2)) 1) = 2%nat /\
      pending (m_hist (s_mem s1)) 1 = [(999, 60)] /\ pending (m_hist (s_mem s2)) 1 = [(999, 60)]
  | _, _ => False
  end).
Proof. apply after_e_intro. vm_compute. repeat split. Qed.

(** A whole life: both arenas are reset, used on and destroyed; every block is
    given back and the object handed over is cleaned up, once each time. *)
Example C83_elsewhere_life_ex : after_e env32 notes 32
  (three_blocks ++ [SReset 0; SOp 0 (OOwn 779 53); SReset 1; SDestroy 0; SDestroy 1]) (fun s =>
  live_blocks (m_hist (s_mem s)) = Some [] /\ s_arenas s = [None; None] /\
  length (cleanups_run (m_hist (s_mem s))) = 6%nat /\ filter (fun x => fst x =? 999) (cleanups_run (m_hist (s_mem s))) = [(999, 60); (999, 60)]).
Proof. apply after_e_intro. vm_compute. repeat split. Qed.
