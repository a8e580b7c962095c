(** Properties C96 and C97: the objects an arena builds, as their types want it. *)
Require Import ZArith List Bool Lia.
From Verif Require Import Base BaseProofs ArenaSpec ArenaModel ArenaStatements ArenaCases
  ArenaProofs ArenaProofs2 ArenaProofs6 ArenaProofs7 PropArena ArenaTypeModel ArenaTypeSpec ArenaTypeProofs.
Import ListNotations.
Open Scope Z_scope.

Section Types.
Variable e : env.
Variable A : Z.
Hypothesis HA : block_alignment A.
Hypothesis HG : good_block_alloc A (e_alloc e).

(** C96: an object that has a destructor, of a type without the create-only tag,
    is destroyed by the Reset() or the destruction of the arena that holds it
    then, whatever happened in between; once; before everything registered
    before it, what its constructor registered ([inner]) included. *)
Theorem C96_destroyed : forall T op s i s1 p s2 k o s3 r,
  has_destructor T -> ~ tagged i_skip T -> CreateT T = Some op ->
  reach e A s -> permitted A s (SOp i op) -> step e s (SOp i op) = Ok (s1, p) -> p <> 0 ->
  carried e A s1 i s2 k -> permitted A s2 o -> ends k o -> step e s2 o = Ok (s3, r) ->
  exists evs newer inner, m_hist (s_mem s3) = evs ++ m_hist (s_mem s2) /\
    cleanups_run evs = newer ++ (p, arena_destruct_object T) :: inner ++ pending (m_hist (s_mem s)) i /\
    pending (m_hist (s_mem s3)) k = [].
Proof.
  intros T op s i s1 p s2 k o s3 r H1 H2 HC HR HP HS Hp HK HPo HE HSo.
  assert (Hs : is_destructor_skippable T = false) by (apply skippable_spec; auto).
  unfold CreateT, RegisterDestructor in HC. rewrite Hs in HC. destruct (Creatable T); [|discriminate]. injection HC as <-.
  destruct (C07_create e s i _ _ _ _ s1 p (proj1 (proj1 (proj2 HP))) HS) as (l & _ & E).
  rewrite (proj2 (Z.eqb_neq p 0) Hp) in E. cbn [app] in E.
  assert (HR1 : reach e A s1) by (eapply reach_step; eauto).
  destruct (registered_runs e A HA HG s1 i _ _ s2 k o s3 r HR1 (op_alive e A HA HG s i _ s1 p HR HP HS) E HK HPo HE HSo)
    as (evs & nw & E1 & E2 & E3).
  exists evs, nw, l. auto.
Qed.

(** C96: an object without a destructor, or whose type publicly has the
    create-only tag, is not registered: the cleanups pending are those its
    constructor registered, none if it does not use the arena. *)
Theorem C96_skipped : forall T op s i s1 p,
  ~ has_destructor T \/ tagged i_skip T -> CreateT T = Some op ->
  permitted A s (SOp i op) -> step e s (SOp i op) = Ok (s1, p) ->
  exists inner, (Construct T = [] -> inner = []) /\
    pending (m_hist (s_mem s1)) i = inner ++ pending (m_hist (s_mem s)) i.
Proof.
  intros T op s i s1 p H HC HP HS.
  assert (Hs : is_destructor_skippable T = true).
  { destruct (is_destructor_skippable T) eqn:E; auto. apply skippable_spec in E. tauto. }
  unfold CreateT, RegisterDestructor in HC. rewrite Hs in HC. destruct (Creatable T); [|discriminate]. injection HC as <-.
  destruct (C07_create e s i _ _ _ _ s1 p (proj1 (proj1 (proj2 HP))) HS) as (l & Hl & E).
  exists l. split; auto. destruct (p =? 0) in E; exact E.
Qed.

(** C96: arrays are built only of objects without destructors, all of them
    allowed, and register nothing. *)
Theorem C96_array : forall T num,
  (exists op, CreateArrayT T num = Some op) <-> ~ has_destructor T.
Proof.
  intros T num. unfold CreateArrayT. rewrite <- trivial_spec, not_false_iff_true.
  assert (K : trivially_destructible T = true -> Creatable T = true).
  { intros E. unfold Creatable, Constructable, is_destructor_skippable. rewrite E, !orb_true_r. reflexivity. }
  split.
  - intros (op & H). destruct (trivially_destructible T); auto. now rewrite andb_false_r in H.
  - intros E. rewrite (K E), E. simpl. eauto.
Qed.
Theorem C96_array_unregistered : forall T num op s i s1 p, CreateArrayT T num = Some op ->
  reach e A s -> permitted A s (SOp i op) -> step e s (SOp i op) = Ok (s1, p) ->
  forall j, pending (m_hist (s_mem s1)) j = pending (m_hist (s_mem s)) j.
Proof.
  intros T num op s i s1 p HC HR (H1 & H2 & _) HS. unfold CreateArrayT in HC.
  destruct (Creatable T && trivially_destructible T); [|discriminate]. injection HC as <-. destruct H1 as (a & Hi).
  exact (array_pending e A s i a _ _ _ s1 p HR Hi H2 HS).
Qed.

(** C96: an object given to Own() is deleted in the same way; Own() that returns
    false registers nothing. *)
Theorem C96_owned : forall T obj op s i s1 x s2 k o s3 r,
  OwnT T obj = Some op -> reach e A s -> permitted A s (SOp i op) -> step e s (SOp i op) = Ok (s1, x) ->
  carried e A s1 i s2 k -> permitted A s2 o -> ends k o -> step e s2 o = Ok (s3, r) ->
  (x = 1 /\ exists evs newer, m_hist (s_mem s3) = evs ++ m_hist (s_mem s2) /\
     cleanups_run evs = newer ++ (obj, arena_delete_object T) :: pending (m_hist (s_mem s)) i /\
     pending (m_hist (s_mem s3)) k = []) \/
  (x = 0 /\ pending (m_hist (s_mem s1)) i = pending (m_hist (s_mem s)) i).
Proof.
  intros T obj op s i s1 x s2 k o s3 r HC HR HP HS HK HPo HE HSo. unfold OwnT in HC.
  destruct (NonConstructable T); [|discriminate]. injection HC as <-.
  assert (HR1 : reach e A s1) by (eapply reach_step; eauto).
  destruct (C07_own e A HA HG s i obj _ s1 x HR HP HS) as [(-> & E)|(-> & E)]; [left|right; auto]. split; auto.
  destruct (registered_runs e A HA HG s1 i _ _ s2 k o s3 r HR1 (op_alive e A HA HG s i _ s1 1 HR HP HS) E HK HPo HE HSo)
    as (evs & nw & E1 & E2 & E3). eauto.
Qed.

(** Own() takes exactly the types that are not (publicly) fully managed. *)
Theorem C96_ownable : forall T obj, (exists op, OwnT T obj = Some op) <-> ~ tagged i_full T.
Proof.
  intros T obj. unfold OwnT, NonConstructable, is_arena_full_managable. rewrite <- tag_seen_spec.
  destruct (tag_seen i_full T); simpl; split; try easy; eauto. intros (op & H). discriminate.
Qed.

(** C97, for types of alignment at most 8.  Missing: larger alignments, where it
    fails ([C97_create_refuted], [C97_array_refuted]). *)
Theorem C97_create_partial : forall T op s i s1 p,
  layout_ok T -> i_align (own T) <= 8 -> CreateT T = Some op ->
  reach e A s -> permitted A s (SOp i op) -> step e s (SOp i op) = Ok (s1, p) -> p <> 0 ->
  p mod i_align (own T) = 0 /\ In (i, p, i_size (own T)) (live_ranges (m_hist (s_mem s1))).
Proof.
  intros T op s i s1 p (L1 & L2 & L3) L4 HC HR HP HS Hp. unfold CreateT in HC.
  destruct (Creatable T); [|discriminate]. injection HC as <-.
  destruct (C05_returned_aligned e A HA HG s i _ s1 p _ _ HR HP HS eq_refl Hp) as (_ & Hm & j & -> & Hin).
  split; auto. now apply pow2_divides8.
Qed.

Theorem C97_array_partial : forall T num op s i s1 p n,
  layout_ok T -> i_align (own T) <= 8 -> CreateArrayT T num = Some op ->
  reach e A s -> permitted A s (SOp i op) -> step e s (SOp i op) = Ok (s1, p) -> p <> 0 ->
  0 <= n < num ->
  (p + n * i_size (own T)) mod i_align (own T) = 0 /\
  exists size, In (i, p, size) (live_ranges (m_hist (s_mem s1))) /\ p + (n + 1) * i_size (own T) <= p + size.
Proof.
  intros T num op s i s1 p n (L1 & L2 & L3) L4 HC HR HP HS Hp Hn. unfold CreateArrayT in HC.
  destruct (Creatable T && trivially_destructible T); [|discriminate]. injection HC as <-.
  destruct (C05_returned_aligned e A HA HG s i _ s1 p _ _ HR HP HS eq_refl Hp) as (_ & Hm & j & -> & Hin).
  split.
  - assert (0 < i_align (own T)) by (destruct L1 as (m & Hm' & ->); lia).
    rewrite Z.add_mod, Z.mul_mod, L3, Z.mul_0_r, Z.mod_0_l, Z.add_0_r, Z.mod_mod by lia. now apply pow2_divides8.
  - exists (num * i_size (own T)). split; auto. nia.
Qed.
End Types.

Print Assumptions C96_destroyed.
Print Assumptions C96_skipped.
Print Assumptions C96_array.
Print Assumptions C96_array_unregistered.
Print Assumptions C96_owned.
Print Assumptions C96_ownable.
Print Assumptions C97_create_partial.
Print Assumptions C97_array_partial.

(** ** Cases *)
Definition plain (size align id : Z) : info :=
  {| i_size := size; i_align := align; i_id := id; i_skip := None; i_full := None; i_dtor := false; i_trivial := true;
     i_alloc := false; i_arena := false; i_pmr := false; i_variant := false; i_ctor := fun _ => [] |}.
Definition with_dtor (x : info) : info :=
  {| i_size := i_size x; i_align := i_align x; i_id := i_id x; i_skip := i_skip x; i_full := i_full x; i_dtor := true; i_trivial := false;
     i_alloc := i_alloc x; i_arena := i_arena x; i_pmr := i_pmr x; i_variant := i_variant x; i_ctor := i_ctor x |}.
Definition tag_full (x : info) : info :=
  {| i_size := i_size x; i_align := i_align x; i_id := i_id x; i_skip := i_skip x; i_full := Some Public; i_dtor := i_dtor x; i_trivial := i_trivial x;
     i_alloc := i_alloc x; i_arena := i_arena x; i_pmr := i_pmr x; i_variant := i_variant x; i_ctor := i_ctor x |}.
Definition tag_skip (x : info) : info :=
  {| i_size := i_size x; i_align := i_align x; i_id := i_id x; i_skip := Some Public; i_full := i_full x; i_dtor := i_dtor x; i_trivial := i_trivial x;
     i_alloc := i_alloc x; i_arena := i_arena x; i_pmr := i_pmr x; i_variant := i_variant x; i_ctor := i_ctor x |}.
Definition with_ctor (f : given -> list op) (x : info) : info :=
  {| i_size := i_size x; i_align := i_align x; i_id := i_id x; i_skip := i_skip x; i_full := i_full x; i_dtor := i_dtor x; i_trivial := i_trivial x;
     i_alloc := i_alloc x; i_arena := true; i_pmr := i_pmr x; i_variant := i_variant x; i_ctor := f |}.

(** An int; a std::string as far as destruction goes; the classes of
    test/arena_test.cc:652-677; one whose constructor owns an object. *)
Definition t_int : ctype := CType (plain 4 4 1) None [].
Definition t_string : ctype := CType (with_dtor (plain 32 8 2)) None [].
Definition t_need_dstr : ctype := CType (tag_full (with_dtor (plain 40 8 3))) None [t_int; t_string].
Definition t_without_dstr : ctype := CType (tag_skip (with_dtor (plain 32 8 4))) None [t_string].
Definition t_owner : ctype :=
  CType (with_ctor (fun g => match g with ThisArena => [OOwn 900 5] | _ => [] end) (tag_full (plain 40 8 6))) None [t_string; t_int].

(** Runs the steps of [l], following the objects of arena [i]. *)
Fixpoint carry (e : env) (A : Z) (s : sys) (i : nat) (l : list sop) : option (sys * nat) :=
  match l with
  | [] => Some (s, i)
  | o :: r => if permittedb A s o then
                match step e s o, next_home s i o with Ok (s', _), Some k => carry e A s' k r | _, _ => None end
              else None
  end.
Lemma carry_from e A l : forall s i s1 j s2 k, carried e A s i s1 j -> carry e A s1 j l = Some (s2, k) -> carried e A s i s2 k.
Proof.
  induction l as [|o l IH]; cbn [carry]; intros s i s1 j s2 k H E; [injection E as <- <-; exact H|].
  destruct (permittedb A s1 o) eqn:Ep; [|discriminate]. destruct (step e s1 o) as [[s' x]| |] eqn:Es; try discriminate.
  destruct (next_home s1 j o) as [j'|] eqn:En; [|discriminate]. eapply IH; [|exact E].
  eapply carried_step; [exact H|apply permittedb_ok; exact Ep|exact Es|exact En].
Qed.
Lemma carry_ok e A l s i s2 k : carry e A s i l = Some (s2, k) -> carried e A s i s2 k.
Proof. apply carry_from. apply carried_here. Qed.

(** The owner is created in arena 0; objects are created after it; the arena is
    moved; arena 1 is reset; the old arena and then the new one are destroyed. *)
Example C96_life : exists op s1 p s2 s3 r,
  has_destructor t_owner /\ ~ tagged i_skip t_owner /\ CreateT t_owner = Some op /\
  after env32 32 [SNew hooked; SNew hooked; SOp 1 (OAllocate 8 8); SOp 0 (OOwn 901 7)] (fun s =>
    permitted 32 s (SOp 0 op) /\ step env32 s (SOp 0 op) = Ok (s1, p) /\ p = 8224 /\
    carried env32 32 s1 0 s2 2 /\ permitted 32 s2 (SDestroy 2) /\ ends 2 (SDestroy 2) /\ step env32 s2 (SDestroy 2) = Ok (s3, r) /\
    cleanups_run (m_hist (s_mem s3)) = [(8264, 6); (8224, 12); (900, 5); (901, 7)]).
Proof.
  assert (Hd : has_destructor t_owner) by (apply trivial_spec; reflexivity).
  assert (Ht : ~ tagged i_skip t_owner) by (rewrite <- tag_seen_spec; discriminate).
  destruct (CreateT t_owner) as [op|] eqn:HC; [|discriminate HC].
  assert (K : match runp env32 32 init 0 [SNew hooked; SNew hooked; SOp 1 (OAllocate 8 8); SOp 0 (OOwn 901 7)] with
    | Some (s, _) => permittedb 32 s (SOp 0 op) = true /\
        match step env32 s (SOp 0 op) with
        | Ok (s1, p) => p = 8224 /\
            match carry env32 32 s1 0 [SOp 0 (OCreate 40 3 (Some 6) []); SMove 0; SReset 1; SDestroy 0] with
            | Some (s2, k) => k = 2%nat /\ permittedb 32 s2 (SDestroy 2) = true /\
                match step env32 s2 (SDestroy 2) with
                | Ok (s3, _) => cleanups_run (m_hist (s_mem s3)) = [(8264, 6); (8224, 12); (900, 5); (901, 7)]
                | _ => False
                end
            | None => False
            end
        | _ => False
        end
    | None => False
    end) by (vm_compute in HC; injection HC as <-; vm_compute; repeat split).
  destruct (runp env32 32 init 0 _) as [[s x]|] eqn:E0 in K; [|contradiction]. destruct K as (K1 & K).
  destruct (step env32 s (SOp 0 op)) as [[s1 p]| |] eqn:E1 in K; try contradiction. destruct K as (K2 & K).
  destruct (carry env32 32 s1 0 _) as [[s2 k]|] eqn:E2 in K; [|contradiction]. destruct K as (-> & K3 & K).
  destruct (step env32 s2 (SDestroy 2)) as [[s3 r]| |] eqn:E3 in K; try contradiction.
  exists op, s1, p, s2, s3, r. split; [exact Hd|]. split; [exact Ht|]. split; [reflexivity|].
  exists s, x. split; [exact E0|]. split; [eapply runp_reach; [apply reach_init|exact E0]|].
  split; [apply permittedb_ok; exact K1|]. split; [exact E1|]. split; [exact K2|]. split; [eapply carry_ok; exact E2|].
  split; [apply permittedb_ok; exact K3|]. split; [right; reflexivity|]. split; [exact E3|exact K].
Qed.

(** A create-only class: its destructor is not run. An array of ints. *)
Example C96_create_only : exists op op2,
  tagged i_skip t_without_dstr /\ CreateT t_without_dstr = Some op /\
  ~ has_destructor t_int /\ CreateArrayT t_int 10 = Some op2 /\ (forall n, CreateArrayT t_string n = None) /\
  after env32 32 [SNew hooked; SOp 0 op; SOp 0 op2] (fun s =>
    live_ranges (m_hist (s_mem s)) = [(0%nat, 4160, 40); (0%nat, 4128, 32)] /\ pending (m_hist (s_mem s)) 0 = []).
Proof.
  eexists _, _. split; [apply tag_seen_spec; reflexivity|]. split; [reflexivity|].
  split; [rewrite <- trivial_spec; discriminate|]. split; [reflexivity|]. split; [reflexivity|].
  apply after_intro. vm_compute. split; reflexivity.
Qed.

(** The tag is inherited.  A class that declares no tag and has a destructor of
    its own, publicly derived from a create-only class, is never destroyed; with
    private inheritance it is. *)
Definition t_derived (ac : access) : ctype := CType (tag_full (with_dtor (plain 64 8 8))) (Some (ac, t_without_dstr)) [t_string].
Theorem C96_inherited_refuted : exists T op,
  i_dtor (own T) = true /\ i_skip (own T) = None /\ i_full (own T) = Some Public /\ CreateT T = Some op /\
  after env32 32 [SNew hooked; SOp 0 op; SDestroy 0] (fun s =>
    s_arenas s = [None] /\ In (CRange 0 4128 64) (m_hist (s_mem s)) /\ cleanups_run (m_hist (s_mem s)) = []).
Proof.
  eexists (t_derived Public), _. split; [reflexivity|]. split; [reflexivity|]. split; [reflexivity|]. split; [reflexivity|].
  apply after_intro. vm_compute. split; [reflexivity|]. split; [tauto|reflexivity].
Qed.
Example C96_privately : exists op, ~ tagged i_skip (t_derived Private) /\ CreateT (t_derived Private) = Some op /\
  after env32 32 [SNew hooked; SOp 0 op; SDestroy 0] (fun s => cleanups_run (m_hist (s_mem s)) = [(4128, 16)]).
Proof.
  eexists. split; [rewrite <- tag_seen_spec; discriminate|]. split; [reflexivity|]. apply after_intro. vm_compute. reflexivity.
Qed.

(** Own() of a type that is not fully managed. *)
Example C96_own_case : exists op, ~ tagged i_full t_string /\ OwnT t_string 77 = Some op /\ OwnT t_need_dstr 77 = None /\
  after env32 32 [SNew hooked; SOp 0 op; SMove 0; SReset 1] (fun s => cleanups_run (m_hist (s_mem s)) = [(77, 5)]).
Proof.
  eexists. split; [rewrite <- tag_seen_spec; discriminate|]. split; [reflexivity|]. split; [reflexivity|].
  apply after_intro. vm_compute. reflexivity.
Qed.

(** C97: Create and CreateArray ask for alignment 8 whatever the type needs. *)
Definition t_wide : ctype := CType (plain 16 16 9) None [].
Theorem C97_create_refuted : exists T op,
  layout_ok T /\ i_align (own T) = 16 /\ CreateT T = Some op /\
  after env32 32 [SNew hooked; SOp 0 (OAllocate 8 8)] (fun s => permitted 32 s (SOp 0 op) /\
    exists s1 p, step env32 s (SOp 0 op) = Ok (s1, p) /\ p <> 0 /\ p mod i_align (own T) = 8).
Proof.
  exists t_wide, (OCreate 16 9 None []). split.
  { split; [exists 4; split; [lia|reflexivity]|]. split; [unfold max_request; simpl; lia|reflexivity]. }
  split; [reflexivity|]. split; [reflexivity|].
  apply after_intro.
  assert (K : match runp env32 32 init 0 [SNew hooked; SOp 0 (OAllocate 8 8)] with
    | Some (s, _) => permittedb 32 s (SOp 0 (OCreate 16 9 None [])) = true /\ match step env32 s (SOp 0 (OCreate 16 9 None [])) with Ok (_, p) => p = 4136 | _ => False end
    | None => False
    end) by (vm_compute; split; reflexivity).
  destruct (runp env32 32 init 0 _) as [[s x]|]; [|exact K]. destruct K as (K1 & K2). split; [apply permittedb_ok; exact K1|].
  destruct (step env32 s _) as [[s1 p]| |]; try contradiction. subst p. exists s1, 4136. split; [reflexivity|]. split; [discriminate|reflexivity].
Qed.
Theorem C97_array_refuted : exists T op,
  layout_ok T /\ i_align (own T) = 16 /\ CreateArrayT T 3 = Some op /\
  after env32 32 [SNew hooked; SOp 0 (OAllocate 8 8)] (fun s => permitted 32 s (SOp 0 op) /\
    exists s1 p, step env32 s (SOp 0 op) = Ok (s1, p) /\ p <> 0 /\
      forall n, 0 <= n < 3 -> (p + n * i_size (own T)) mod i_align (own T) = 8).
Proof.
  exists t_wide, (OCreateArray 16 3 9). split.
  { split; [exists 4; split; [lia|reflexivity]|]. split; [unfold max_request; simpl; lia|reflexivity]. }
  split; [reflexivity|]. split; [reflexivity|].
  apply after_intro.
  assert (K : match runp env32 32 init 0 [SNew hooked; SOp 0 (OAllocate 8 8)] with
    | Some (s, _) => permittedb 32 s (SOp 0 (OCreateArray 16 3 9)) = true /\ match step env32 s (SOp 0 (OCreateArray 16 3 9)) with Ok (_, p) => p = 4136 | _ => False end
    | None => False
    end) by (vm_compute; split; reflexivity).
  destruct (runp env32 32 init 0 _) as [[s x]|]; [|exact K]. destruct K as (K1 & K2). split; [apply permittedb_ok; exact K1|].
  destruct (step env32 s _) as [[s1 p]| |]; try contradiction. subst p. exists s1, 4136. split; [reflexivity|]. split; [discriminate|].
  intros n Hn. assert (E : n = 0 \/ n = 1 \/ n = 2) by lia. destruct E as [->|[->| ->]]; reflexivity.
Qed.
Print Assumptions C96_inherited_refuted.
Print Assumptions C97_create_refuted.
Print Assumptions C97_array_refuted.

(** The hypotheses of the partial theorems, met: an object and an array of doubles. *)
Example C97_case : exists op op2 s1 p s2 q, let T := CType (plain 24 8 10) None [] in
  layout_ok T /\ i_align (own T) <= 8 /\ CreateT T = Some op /\ CreateArrayT T 5 = Some op2 /\
  after env32 32 [SNew hooked; SOp 0 (OAllocate 3 8)] (fun s =>
    permitted 32 s (SOp 0 op) /\ step env32 s (SOp 0 op) = Ok (s1, p) /\ p = 4136 /\
    permitted 32 s1 (SOp 0 op2) /\ step env32 s1 (SOp 0 op2) = Ok (s2, q) /\ q = 4160).
Proof.
  assert (K : match runp env32 32 init 0 [SNew hooked; SOp 0 (OAllocate 3 8)] with
    | Some (s, _) => permittedb 32 s (SOp 0 (OCreate 24 10 None [])) = true /\
        match step env32 s (SOp 0 (OCreate 24 10 None [])) with
        | Ok (s1, p) => p = 4136 /\ permittedb 32 s1 (SOp 0 (OCreateArray 24 5 10)) = true /\
            match step env32 s1 (SOp 0 (OCreateArray 24 5 10)) with Ok (_, q) => q = 4160 | _ => False end
        | _ => False
        end
    | None => False
    end) by (vm_compute; repeat split).
  destruct (runp env32 32 init 0 _) as [[s x]|] eqn:E0 in K; [|contradiction]. destruct K as (K1 & K).
  destruct (step env32 s _) as [[s1 p]| |] eqn:E1 in K; try contradiction. destruct K as (K2 & K3 & K).
  destruct (step env32 s1 _) as [[s2 q]| |] eqn:E2 in K; try contradiction.
  exists (OCreate 24 10 None []), (OCreateArray 24 5 10), s1, p, s2, q. cbv zeta. split.
  { split; [exists 3; split; [lia|reflexivity]|]. split; [unfold max_request; simpl; lia|reflexivity]. }
  split; [simpl; lia|]. split; [reflexivity|]. split; [reflexivity|].
  exists s, x. split; [exact E0|]. split; [eapply runp_reach; [apply reach_init|exact E0]|].
  split; [apply permittedb_ok; exact K1|]. split; [exact E1|]. split; [exact K2|].
  split; [apply permittedb_ok; exact K3|]. split; [exact E2|exact K].
Qed.
