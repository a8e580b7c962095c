(** Property C92: constructors that use arenas. *)
Require Import ZArith List Bool Lia.
From Verif Require Import Base BaseProofs ArenaSpec ArenaModel ArenaStatements ArenaCases
  ArenaProofs ArenaProofs2 ArenaProofs4 ArenaReentModel ArenaReentSpec ArenaReentProofs ArenaReentProofs2
  ArenaHookModel ArenaHookSpec ArenaHookProofs ArenaHookProofs5 PropArenaHook
  ArenaCallModel ArenaCallSpec ArenaCallProofs ArenaCallProofs2 ArenaCallProofs3 PropArenaCall
  ArenaCtorModel ArenaCtorSpec ArenaCtorProofs.
Import ListNotations.
Open Scope Z_scope.

Section Ctors.
Variable e : env.
Variable k : hooks.
Variable c : calls.
Variable A : Z.
Hypothesis HA : block_alignment A.
Hypothesis HG : good_block_alloc A (e_alloc e).

(** C92: constructors that perform a fixed list of operations on the arena
    they are called by, or none, are those of C90. *)
Theorem C92_conservative : forall o i s,
  (do (s', r, _) <- exec_x e c (inject i o) i s; Ok (s', r)) = exec_c e c o i s.
Proof. exact (inject_same e c). Qed.

(** C92: whatever constructors do with living arenas, the call completes; *)
Theorem C92_progress : forall s o, reach_x e k c A s -> permitted_x A k c s o ->
  exists s' r t, step_x e c k s o = Ok (s', r, t).
Proof.
  intros s o HR HP. destruct (step_x_ok e c A HA HG k s o (reach_x_inv e c A HA HG k s HR) HP) as (s' & r & t & E & _). eauto.
Qed.

(** everything an arena promises holds after it; *)
Theorem C92_sound : forall s, reach_x e k c A s -> sound e s.
Proof. intros s HR. exact (inv_sound e A s (reach_x_inv e c A HA HG k s HR)). Qed.

(** the object has an aligned range of its own; all objects that were built lie
    in ranges handed out by this call and do not overlap; what others had before
    is untouched. *)
Theorem C92_request : forall s i x, reach_x e k c A s -> permitted_x A k c s (XB i x) ->
  exists s' r t, step_x e c k s (XB i x) = Ok (s', r, t) /\ reach_x e k c A s' /\
    later (m_hist (s_mem s)) (m_hist (s_mem s')) /\
    (forall n al, x_range x = Some (n, al) -> r <> 0 ->
       0 < r /\ r mod al = 0 /\ exists j, x_served_by s i x j /\ In (j, r, n) (live_ranges (m_hist (s_mem s')))) /\
    (exists new, live_ranges (m_hist (s_mem s')) = new ++ live_ranges (m_hist (s_mem s)) /\
       Forall (within new) t /\ pairwise objects_apart t) /\
    (forall j, exists l, pending (m_hist (s_mem s')) j = l ++ pending (m_hist (s_mem s)) j).
Proof.
  intros s i x HR HP. pose proof HP as [H1 H2]. pose proof (reach_x_inv e c A HA HG k s HR) as HI.
  destruct (proj1 (all_good e c A HA HG) x s i s (post_refl A s HI) H1 H2) as (s' & r & t & E & P & Q1 & Q2).
  pose proof (post_later A s s' P) as L. exists s', r, t. split; [exact E|]. split; [eapply rx_step; eauto; exact I|]. split; [exact L|].
  split; [exact Q1|]. split; [exact Q2|]. intros j; now apply later_pending.
Qed.

(** C92: CreateArray calls the constructor once for every element, in order, at
    its address, after the array has its range and before anything is reported;
    if there is no memory it calls none. *)
Theorem C92_array : forall s i sz num ty ctor s' r t, reach_x e k c A s -> permitted_x A k c s (XB i (XArray sz num ty ctor)) ->
  step_x e c k s (XB i (XArray sz num ty ctor)) = Ok (s', r, t) ->
  (r = 0 /\ t = []) \/
  (exists inner, t = flat_map (fun m => (i, r + Z.of_nat m * sz, sz) :: inner m) (seq 0 (Z.to_nat num)) /\
    forall m, (m < Z.to_nat num)%nat -> exists s1 s2, run_x e c (ctor m (r + Z.of_nat m * sz)) s1 = Ok (s2, inner m) /\
      later (m_hist (s_mem s)) (m_hist (s_mem s1)) /\ later (m_hist (s_mem s2)) (m_hist (s_mem s')) /\
      In (i, r, num * sz) (live_ranges (m_hist (s_mem s1)))).
Proof.
  intros s i sz num ty ctor s' r t HR [H1 H2] E.
  exact (array_run e c A HA HG sz num ty ctor i s s' r t (reach_x_inv e c A HA HG k s HR) H1 H2 E).
Qed.

(** C92: Create calls the constructor once, after the object has its range. The
    destructor is registered after that: it runs before all cleanups that the
    constructor registered with the arena. *)
Theorem C92_create : forall s i sz ty dtor ctor s' r t, reach_x e k c A s -> permitted_x A k c s (XB i (XCreate sz ty dtor ctor)) ->
  step_x e c k s (XB i (XCreate sz ty dtor ctor)) = Ok (s', r, t) -> r <> 0 ->
  exists inner s1 s2, t = (i, r, sz) :: inner /\ run_x e c (ctor r) s1 = Ok (s2, inner) /\
    later (m_hist (s_mem s)) (m_hist (s_mem s1)) /\ later (m_hist (s_mem s2)) (m_hist (s_mem s')) /\
    In (i, r, sz) (live_ranges (m_hist (s_mem s1))) /\
    match dtor with
    | None => True
    | Some fn => exists t1 t2, pending (m_hist (s_mem s')) i = t1 ++ (r, fn) :: t2 ++ pending (m_hist (s_mem s2)) i
    end.
Proof.
  intros s i sz ty dtor ctor s' r t HR [H1 H2] E Hr.
  exact (create_run e c A HA HG sz ty dtor ctor i s s' r t (reach_x_inv e c A HA HG k s HR) H1 H2 E Hr).
Qed.
End Ctors.

Print Assumptions C92_conservative.
Print Assumptions C92_progress.
Print Assumptions C92_sound.
Print Assumptions C92_request.
Print Assumptions C92_array.
Print Assumptions C92_create.

(** ** Case *)
Lemma reach_c_x e k c A s : reach_c e k c A s -> reach_x e k c A s.
Proof.
  induction 1 as [|s o s' r HR IH HP HS HT]; [apply rx_init|].
  apply (rx_step e k c A s (XS o) s' r []); auto. cbn [step_x]. now rewrite HS.
Qed.

(** An object in arena 1 that builds one in arena 0, whose constructor uses
    arena 1 again and lists the object there if it got memory; then an array in
    arena 0 whose elements take memory from the arena they are in, more and
    more of it, registering themselves. *)
Definition inner_obj : xop := XCreate 24 8 (Some 84) (fun p =>
  XDo 1 (XOp (OAllocate 100 8)) (fun r => if r =? 0 then XDone else XDo 0 (XOp (OOwn r 85)) (fun _ => XDone))).
Definition outer_obj : xop := XCreate 40 7 (Some 83) (fun p =>
  XDo 0 inner_obj (fun r => if r =? 0 then XDone else XDo 1 (XOp (OOwn r 86)) (fun _ => XDone))).
Definition row : xop := XArray 16 3 9 (fun n p => XDo 0 (XOp (OAllocateCleanup (2000 * Z.of_nat (S (Nat.min n 7))) 90 p)) (fun _ => XDone)).

Definition idle : hooks := always none none none true.
Definition quiet : calls := ever none none.
Example C92_ex : afterc env32 32 none none none true none none [SNew hooked; SNew hooked] (fun s =>
  permitted_x 32 idle quiet s (XB 1 outer_obj) /\
  match step_x env32 quiet idle s (XB 1 outer_obj) with
  | Ok (s1, r1, t1) =>
      reach_x env32 idle quiet 32 s1 /\ permitted_x 32 idle quiet s1 (XB 0 row) /\
      r1 = 4128 /\ t1 = [(1%nat, 4128, 40); (0%nat, 8224, 24)] /\
      pending (m_hist (s_mem s1)) 1 = [(4128, 83); (8224, 86)] /\
      pending (m_hist (s_mem s1)) 0 = [(8224, 84); (4168, 85)] /\
      match step_x env32 quiet idle s1 (XB 0 row) with
      | Ok (s2, r2, t2) =>
          r2 = 8248 /\ t2 = [(0%nat, 8248, 16); (0%nat, 8264, 16); (0%nat, 8280, 16)] /\
          pending (m_hist (s_mem s2)) 0 = [(8280, 90); (8264, 90); (8248, 90); (8224, 84); (4168, 85)]
      | _ => False
      end
  | _ => False
  end).
Proof.
  destruct (afterc_intro env32 32 none none none true none none [SNew hooked; SNew hooked]
    (fun s => calls_okb 32 none none s = true /\ aliveb s 0 = true /\ aliveb s 1 = true /\
       match step_x env32 quiet idle s (XB 1 outer_obj) with
       | Ok (s1, _, _) => calls_okb 32 none none s1 = true /\ aliveb s1 0 = true
       | _ => False end)) as (s & E & R & H1 & H2 & H3 & H4).
  { vm_compute. repeat split. }
  assert (AL : forall s i, aliveb s i = true -> alive s i).
  { intros s0 i. unfold aliveb, alive. destruct (nth_error (s_arenas s0) i) as [[a|]|]; try discriminate. eauto. }
  assert (PO : permitted_x 32 idle quiet s (XB 1 outer_obj)).
  { split; [|now apply calls_okb_ok]. apply AL in H2. apply AL in H3. cbn. unfold max_request. repeat split; auto; try lia; try discriminate.
    all: intros; destruct (_ =? 0); cbn; repeat split; auto; try lia; try discriminate. }
  exists s. split; [exact E|]. split; [exact R|]. split; [exact PO|].
  destruct (step_x env32 quiet idle s (XB 1 outer_obj)) as [[[s1 r1] t1]| |] eqn:E1; try contradiction. destruct H4 as [H4 H5].
  split. { eapply rx_step; [apply reach_c_x; exact R|exact PO|exact E1|exact I]. }
  split.
  { split; [|now apply calls_okb_ok]. apply AL in H5. cbn. unfold max_request. repeat split; auto; try lia; try discriminate.
    all: intros; try lia. }
  vm_compute in E. injection E as <-. vm_compute in E1. injection E1 as <- <- <-. vm_compute. repeat split.
Qed.
