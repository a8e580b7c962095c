(** Property C89: metrics hooks that use arenas, among them the one they are
    told about. *)
Require Import ZArith List Bool Lia.
From Verif Require Import Base BaseProofs ArenaSpec ArenaModel ArenaStatements ArenaCases
  ArenaProofs ArenaProofs4 ArenaReentModel ArenaReentSpec ArenaReentProofs ArenaReentProofs2
  ArenaHookModel ArenaHookSpec ArenaHookProofs ArenaHookProofs2 ArenaHookProofs3 ArenaHookProofs4 ArenaHookProofs5.
Import ListNotations.
Open Scope Z_scope.

Section Hooks.
Variable e : env.
Variable k : hooks.
Variable A : Z.
Hypothesis HA : block_alignment A.
Hypothesis HG : good_block_alloc A (e_alloc e).

(** C89: with hooks that use no arena, and when the memory_resource can be
    allocated, the model is the one of the other properties. *)
Theorem C89_conservative :
  (forall h i, k_init k h i = [] /\ k_reset k h i = [] /\ k_destroy k h i = []) ->
  (forall h, k_resource k h = true) -> forall s o, step_h e k s o = step e s o.
Proof.
  intros H R s o. apply step_h_plain; auto; intros h i; destruct (H h i) as (H1 & H2 & H3); assumption.
Qed.

(** C89: whatever the hooks do with living arenas, the next operation
    completes. *)
Theorem C89_progress : forall s o, reach_h e k A s -> permitted_h A k s o ->
  exists s' r, step_h e k s o = Ok (s', r).
Proof.
  intros s o HR HP. destruct (step_h_ok e k A HA HG s o (reach_h_inv e k A HA HG s HR) HP) as (s' & r & E & _). eauto.
Qed.

(** C89: and as long as no reset or destruction hook makes its own arena obtain
    a block, everything an arena promises holds. *)
Theorem C89_sound_partial : forall s, reach_h e k A s -> sound e s.
Proof. intros s HR. exact (inv_sound e A s (reach_h_inv e k A HA HG s HR)). Qed.

(** C89: construction.  The hook may use the new arena: the arena keeps what it
    obtained and registered, and its cookie is what the hook returned.
    Without the hook the cookie is null and no block is obtained.  The arena
    has a memory_resource unless that could not be allocated. *)
Theorem C89_init : forall s o, reach_h e k A s -> permitted_h A k s (SNew o) ->
  let n := length (s_arenas s) in
  exists s' a evs, step_h e k s (SNew o) = Ok (s', Z.of_nat n) /\ reach_h e k A s' /\
    m_hist (s_mem s') = evs ++ m_hist (s_mem s) /\
    nth_error (s_arenas s') n = Some (Some a) /\ length (s_arenas s') = S n /\ a_opts a = o /\
    a_resource a = (if k_resource k (m_hist (s_mem s)) then Some n else None) /\
    held (m_hist (s_mem s')) n = got n evs /\
    pending (m_hist (s_mem s')) n = registered n evs /\
    cleanups_run evs = [] /\
    (if o_on_init o
     then exists h1, m_hist (s_mem s') = CNew n :: HInit n (a_cookie a) :: h1 /\ a_cookie a = e_cookie e h1
     else a_cookie a = 0 /\ a_blocks a = []) /\
    others_follow n s s' evs.
Proof.
  intros s o HR HP n. pose proof HP as [P1 P2].
  destruct (construct_h_ok e k A HA HG s o (reach_h_inv e k A HA HG s HR) P1 P2)
    as (s' & a & evs & E & _ & H1 & H2 & H3 & H4 & H5 & H6 & H7 & H8 & H9 & H10).
  assert (ES : step_h e k s (SNew o) = Ok (s', Z.of_nat n)) by (simpl; rewrite E; reflexivity).
  exists s', a, evs. split; [exact ES|]. split; [eapply rh_step; eauto; exact I|].
  split; [exact H1|]. split; [exact H3|]. split; [exact H2|]. split; [exact H4|]. split; [exact H5|].
  split; [exact H6|]. split; [exact H7|]. split; [exact H8|]. split; [exact H9|exact H10].
Qed.

(** C89: Reset().  It gives back every block but the oldest and runs the
    cleanups of the others; then the hook.  If the hook obtains no block for
    the arena, the arena ends as after any Reset(), and the cleanups the hook
    registered are run too, before those of the oldest block.  If it obtains
    some, these are kept, SpaceAllocated() is the size of the newest alone, and
    no cleanup of the oldest block is run. *)
Theorem C89_reset : forall s i a front b,
  reach_h e k A s -> permitted_h A k s (SReset i) ->
  nth_error (s_arenas s) i = Some (Some a) -> a_blocks a = front ++ [b] ->
  exists s' r a' evs p1 p2, step_h e k s (SReset i) = Ok (s', r) /\
    m_hist (s_mem s') = evs ++ m_hist (s_mem s) /\
    nth_error (s_arenas s') i = Some (Some a') /\
    held (m_hist (s_mem s')) i = got i evs ++ [(b_addr b, b_size b)] /\
    map span (a_blocks a') = got i evs ++ [(b_addr b, b_size b)] /\
    r = (sizes (got i evs) + sizes (held (m_hist (s_mem s)) i)) mod M64 /\
    SpaceAllocated a' = (match got i evs with [] => b_size b | x :: _ => snd x end) /\
    pending (m_hist (s_mem s)) i = p1 ++ p2 /\ 16 * Z.of_nat (length p2) = b_size b - b_limit b /\
    (got i evs = [] -> cleanups_run evs = p1 ++ registered i evs ++ p2) /\
    (got i evs <> [] -> exists q t, registered i evs = q ++ t /\ cleanups_run evs = p1 ++ q) /\
    (exists L, live_blocks (m_hist (s_mem s')) = Some L) /\ others_follow i s s' evs.
Proof.
  intros s i a front b HR HP Hi Eb.
  destruct (Reset_h_ok e k A HA HG s i a front b (reach_h_inv e k A HA HG s HR) Hi Eb (proj2 HP))
    as (s' & r & a' & evs & p1 & p2 & E & H).
  exists s', r, a', evs, p1, p2. split; [exact E|]. destruct H as (H1 & H2 & H3 & H4 & H5 & H6 & H7 & H8 & H9 & H10 & H11 & _).
  split; [exact H1|]. split; [exact H2|]. split; [exact H3|]. split; [exact H4|]. split; [exact H5|].
  split; [exact H6|]. split; [exact H7|]. split; [exact H8|].
  destruct (got i evs); repeat split; auto; congruence.
Qed.

(** C89: destruction.  Every cleanup pending is run and every block given back
    before the hook is called; what the hook obtains stays held by the arena
    that is gone. *)
Theorem C89_destroy : forall s i a,
  reach_h e k A s -> permitted_h A k s (SDestroy i) -> nth_error (s_arenas s) i = Some (Some a) ->
  exists s' evs, step_h e k s (SDestroy i) = Ok (s', 0) /\
    m_hist (s_mem s') = evs ++ m_hist (s_mem s) /\
    cleanups_run evs = pending (m_hist (s_mem s)) i /\
    held (m_hist (s_mem s')) i = got i evs /\
    (exists L, live_blocks (m_hist (s_mem s')) = Some L) /\ ~ alive s' i /\ others_follow i s s' evs.
Proof.
  intros s i a HR HP Hi.
  destruct (destroy_h_ok e k A HA HG s i a (reach_h_inv e k A HA HG s HR) Hi (proj2 HP))
    as (s' & evs & E & H). exists s', evs. split; [exact E|]. intuition auto.
Qed.
End Hooks.

Print Assumptions C89_conservative.
Print Assumptions C89_progress.
Print Assumptions C89_sound_partial.
Print Assumptions C89_init.
Print Assumptions C89_reset.
Print Assumptions C89_destroy.

(** ** Cases *)

(** Hooks that do the same whatever happened before, and the conditions of the
    theorems for them, to be computed. *)
Definition always (li lr ld : nat -> list (nat * op)) (ok : bool) : hooks :=
  {| k_init := fun _ => li; k_reset := fun _ => lr; k_destroy := fun _ => ld; k_resource := fun _ => ok |}.

Definition may_useb (A : Z) (s : sys) (l : list (nat * op)) : bool :=
  forallb (fun x => aliveb s (fst x) && op_okb A (snd x) && (negb (uses_resource (snd x)) || resource_aliveb s (fst x))) l.
Definition may_use_newb (A : Z) (s : sys) (ok : bool) (l : list (nat * op)) : bool :=
  forallb (fun x => op_okb A (snd x) &&
    ((aliveb s (fst x) && (negb (uses_resource (snd x)) || resource_aliveb s (fst x))) ||
     ((fst x =? length (s_arenas s))%nat && (negb (uses_resource (snd x)) || ok)))) l.

Lemma resource_aliveb_ok s i : resource_aliveb s i = true -> resource_alive s i.
Proof.
  unfold resource_aliveb. intros H. destruct (nth_error (s_arenas s) i) as [[a|]|] eqn:Ei; try discriminate.
  destruct (a_resource a) as [j|] eqn:Ej; try discriminate. exists a, j. repeat split; auto. now apply aliveb_ok.
Qed.
Lemma may_useb_ok A s l : may_useb A s l = true -> may_use A s l.
Proof.
  intros H j o Hin. unfold may_useb in H. rewrite forallb_forall in H. specialize (H _ Hin). simpl in H.
  apply andb_prop in H as [H H1]. apply andb_prop in H as [H H2]. split; [now apply aliveb_ok|]. split; [now apply op_okb_ok|].
  intros E. rewrite E in H1. now apply resource_aliveb_ok.
Qed.
Lemma may_use_newb_ok A s ok l : may_use_newb A s ok l = true -> may_use_new A s ok l.
Proof.
  intros H j o Hin. unfold may_use_newb in H. rewrite forallb_forall in H. specialize (H _ Hin). cbn [fst snd] in H.
  apply andb_prop in H as [H H1]. split; [now apply op_okb_ok|].
  apply orb_prop in H1 as [H1|H1]; apply andb_prop in H1 as [H1 H2]; [left|right]; (split; [|intros E; rewrite E in H2]).
  - now apply aliveb_ok. - now apply resource_aliveb_ok. - now apply Nat.eqb_eq. - exact H2.
Qed.

Section Run.
Variable e : env.
Variable A : Z.
Variables li lr ld : nat -> list (nat * op).
Variable ok : bool.
Let k := always li lr ld ok.

Definition permitted_hb (s : sys) (o : sop) : bool :=
  permittedb A s o &&
  match o with
  | SNew _ => may_use_newb A s ok (li (length (s_arenas s)))
  | SReset i => may_useb A s (lr i)
  | SDestroy i => may_useb A s (ld i)
  | _ => true
  end.
Definition tameb (s s' : sys) (o : sop) : bool :=
  match o with
  | SReset i | SDestroy i => match got i (added s s') with [] => true | _ => false end
  | _ => true
  end.
Lemma permitted_hb_ok s o : permitted_hb s o = true -> permitted_h A k s o.
Proof.
  intros H. apply andb_prop in H as [H1 H2]. split; [now apply permittedb_ok|].
  destruct o; auto; intros h; [now apply may_use_newb_ok|now apply may_useb_ok|now apply may_useb_ok].
Qed.

(** Runs the operations, checking that each is permitted, and tame. *)
Fixpoint runh (s : sys) (l : list sop) : option sys :=
  match l with
  | [] => Some s
  | o :: r => if permitted_hb s o then
                match step_h e k s o with
                | Ok (s', _) => if tameb s s' o then runh s' r else None
                | _ => None
                end
              else None
  end.

Lemma runh_reach l : forall s s', reach_h e k A s -> runh s l = Some s' -> reach_h e k A s'.
Proof.
  induction l as [|o l IH]; cbn [runh]; intros s s' HR H; [now injection H as <-|].
  destruct (permitted_hb s o) eqn:Ep; [|discriminate]. destruct (step_h e k s o) as [[s1 y]| |] eqn:Es; try discriminate.
  destruct (tameb s s1 o) eqn:Et; [|discriminate]. apply (IH s1); auto. eapply rh_step; eauto.
  - now apply permitted_hb_ok.
  - destruct o; simpl in *; auto; destruct (got _ _); auto; discriminate.
Qed.

Definition afterh (l : list sop) (P : sys -> Prop) : Prop :=
  exists s, runh init l = Some s /\ reach_h e k A s /\ P s.
Lemma afterh_intro l P : match runh init l with Some s => P s | None => False end -> afterh l P.
Proof.
  destruct (runh init l) as [s|] eqn:E; [|easy]. intros H. exists s. split; auto. split; auto. eapply runh_reach; eauto. apply rh_init.
Qed.
End Run.

(** The cookie is the memory most recently handed out. *)
Definition last_range (h : history) : Z :=
  match live_ranges h with (_, p, _) :: _ => p | [] => 0 end.
Definition env_cookie : env := {| e_debug := true; e_alloc := bump 0 (2 ^ 60); e_cookie := last_range |}.
Definition none : nat -> list (nat * op) := fun _ => [].
(** on_arena_init allocates a cookie of 64 bytes with a cleanup. *)
Definition make_cookie : nat -> list (nat * op) := fun i => [(i, OAllocateCleanup 64 70 0)].

(** A hook that puts its cookie in the arena, one that uses the arena at reset
    without growing it, and one that uses another arena at destruction. *)
Definition small_reset : nat -> list (nat * op) := fun i => [(i, OAllocate 40 8); (i, OOwn 555 71)].
Definition log_destroy : nat -> list (nat * op) := fun i => match i with O => [] | _ => [(0%nat, OAllocate 9000 8)] end.
Example C89_ex : afterh env_cookie 32 make_cookie small_reset log_destroy true
  [SNew hooked; SNew hooked; SOp 1 (OOwn 777 52); SOp 1 (OAllocate 5000 8); SReset 1; SOp 1 (OAllocate 16 8); SDestroy 1] (fun s =>
  permitted_hb 32 make_cookie small_reset log_destroy true s (SDestroy 0) = true /\
  cleanups_run (m_hist (s_mem s)) = [(555, 71); (777, 52); (8224, 70)] /\
  held (m_hist (s_mem s)) 1 = [] /\ held (m_hist (s_mem s)) 0 = [(8192, 12288); (4096, 4096)]).
Proof. apply afterh_intro. vm_compute. repeat split. Qed.

(** The memory_resource cannot be allocated: the arena works without. *)
Example C89_no_resource_ex : afterh env_cookie 32 make_cookie none none false [SNew hooked] (fun s =>
  permitted_hb 32 make_cookie none none false s (SOp 0 (OAllocate 8 8)) = true /\
  permitted_hb 32 make_cookie none none false s (SOp 0 (OResource 8 8)) = false /\
  match nth_error (s_arenas s) 0 with
  | Some (Some a) => a_cookie a = 4128 /\ a_resource a = None /\ In ELog (m_hist (s_mem s))
  | _ => False
  end).
Proof. apply afterh_intro. vm_compute. repeat split; auto 10. Qed.

(** C89 fails in these ways (findings A10, A11).

    A reset hook that makes the arena obtain a block: Reset() then resets the
    new block instead of the one that was kept.  SpaceAllocated() is not what
    the arena holds, and the cleanups pending when Reset() was called are not
    run by it. *)
Definition grow : nat -> list (nat * op) := fun i => [(i, OAllocate 9000 8); (i, OOwn 666 73)].
Theorem C89_reset_grows_refuted : afterh env32 32 none grow none true [SNew hooked; SOp 0 (OOwn 777 52)] (fun s =>
  permitted_hb 32 none grow none true s (SReset 0) = true /\
  pending (m_hist (s_mem s)) 0 = [(777, 52)] /\
  match step_h env32 (always none grow none true) s (SReset 0) with
  | Ok (s', r) =>
      r = 16384 /\ held (m_hist (s_mem s')) 0 = [(8192, 12288); (4096, 4096)] /\
      cleanups_run (m_hist (s_mem s')) = [(666, 73)] /\
      match nth_error (s_arenas s') 0 with
      | Some (Some a) => SpaceAllocated a = 12288 /\ cleanups env32 a = Ok 1
      | _ => False
      end
  | _ => False
  end).
Proof. apply afterh_intro. vm_compute. repeat split. Qed.

(** A destruction hook that allocates from the arena it is told about: the
    block is never given back, and a cleanup it registers never run. *)
Theorem C89_destroy_leaks_refuted : afterh env32 32 none none grow true [SNew hooked] (fun s =>
  permitted_hb 32 none none grow true s (SDestroy 0) = true /\
  match step_h env32 (always none none grow true) s (SDestroy 0) with
  | Ok (s', _) =>
      s_arenas s' = [None] /\ live_blocks (m_hist (s_mem s')) = Some [(13152, 4096); (4096, 9032)] /\
      In (CRegister 0 666 73) (m_hist (s_mem s')) /\ cleanups_run (m_hist (s_mem s')) = []
  | _ => False
  end).
Proof. apply afterh_intro. vm_compute. repeat split; auto 10. Qed.

(** A cookie allocated in the arena: Reset() leaves the arena the cookie, but
    its memory is handed out again. *)
Theorem C89_cookie_reused_refuted : afterh env_cookie 32 make_cookie none none true [SNew hooked; SReset 0] (fun s =>
  match step_h env_cookie (always make_cookie none none true) s (SOp 0 (OAllocate 16 8)) with
  | Ok (s', r) =>
      match nth_error (s_arenas s') 0 with
      | Some (Some a) => r = a_cookie a /\ r = 4128
      | _ => False
      end
  | _ => False
  end).
Proof. apply afterh_intro. vm_compute. repeat split. Qed.

(** And when on_arena_destruction is given the cookie, its memory has been
    given back. *)
Theorem C89_cookie_dangles_refuted : afterh env_cookie 32 make_cookie none none true [SNew hooked] (fun s =>
  In (0%nat, 4128, 64) (live_ranges (m_hist (s_mem s))) /\
  match step_h env_cookie (always make_cookie none none true) s (SDestroy 0) with
  | Ok (s', _) => exists c u w h, m_hist (s_mem s') = CDestroy 0 :: HDestroy 0 c u w :: h /\
      c = 4128 /\ live_blocks h = Some []
  | _ => False
  end).
Proof. apply afterh_intro. vm_compute. split; auto. eexists _, _, _, _. repeat split. Qed.
