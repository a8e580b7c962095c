(** Properties C78 and C79: string() and reset() of the global metrics while
    other threads report. *)
Require Import ZArith List Bool Lia.
From Verif Require Import Base BaseProofs ArenaSpec MetricsSpec MetricsModel MetricsStatements MetricsProofs
  MetricsGlobalModel MetricsGlobalStatements MetricsGlobalProofs MetricsGlobalProofs2 MetricsGlobalProofs3.
Import ListNotations.
Open Scope Z_scope.

(** C78: whatever is reported while string() runs, it shows no percentage above
    100, as long as reset() is not called. *)
Theorem C78_percent_partial : forall n s ps x l v, greach false n s ps -> Z.of_nat (length ps) * 100 < M64 ->
  In x (jobs s) -> In (l, v) (j_out x) -> (forall c, l <> LCounter c) -> 0 <= v <= 100.
Proof.
  intros n s ps x l v HR HL Hx Hv HC. pose proof (string_reach n s ps HR HL) as H.
  apply (proj1 (Forall_forall _ _) H) in Hx as [_ HO]. apply (proj1 (Forall_forall _ _) HO) in Hv. unfold shown_ok in Hv. cbn [fst snd] in Hv.
  destruct l; auto. now contradiction (HC c).
Qed.

(** C78: no counter is shown above what has been recorded. *)
Theorem C78_counters_partial : forall n s ps x c v, greach false n s ps -> total c ps < M64 ->
  In x (jobs s) -> In (LCounter c, v) (j_out x) -> 0 <= v <= total c ps.
Proof. intros. eapply shown_reach; eauto. Qed.

(** C78: uninterrupted, it shows every counter under its name, the percentages
    of C20, and every map entry; it faults exactly when C20's string() does. *)
Theorem C78_uninterrupted : forall s j, nth_error (jobs s) j = Some (new_job string_steps) -> inserting (gs s) = false ->
  let g := g_ctr (gs s) in let ks := g_keys (gs s) in
  match global_string g with
  | Ok (sz, lf) =>
      exists y, alone (45 + length ks) j s = GNext {| gs := gs s; jobs := upd_job (jobs s) j y |} /\ j_todo y = [] /\
        rev (j_out y) =
          map (fun c => (LCounter c, g c)) [CInit; CResets; CDestruct; CAlloc; CNewblock; CSpaceAllocated; CSpaceUsed; CSpaceWasted; CSpaceResettled]
          ++ combine (map LSize [64; 128; 256; 512; 1024; 2048; 4096; 1048576]) sz
          ++ combine (map LLife [1; 5; 10; 50; 100; 200; 500; 1000]) lf
          ++ map (fun k => (LCounter (CLoc k), g (CLoc k))) ks
  | _ => alone (45 + length ks) j s = GFault
  end.
Proof.
  intros s j E HI g ks. destruct (global_string g) as [[sz lf]| |] eqn:EG.
  - exact (string_alone_ok s j sz lf E HI EG).
  - exfalso. unfold global_string in EG.
    assert (NA : forall mk n i c d, percentages g mk n i c d <> AssertFail).
    { intros mk n. induction n as [|n IH]; intros i c d; simpl; [discriminate|]. destruct (d =? 0); [discriminate|].
      specialize (IH (S i) (add64 c (g (mk i))) d). destruct (percentages g mk n (S i) _ d); simpl; congruence. }
    pose proof (NA CBucket 8%nat 0%nat 0 (g CAlloc)). destruct (percentages g CBucket 8 0 0 (g CAlloc)); cbn [bind] in EG; try congruence.
    pose proof (NA CLife 8%nat 0%nat 0 (g CDestruct)). destruct (percentages g CLife 8 0 0 (g CDestruct)); cbn [bind] in EG; congruence.
  - exact (string_alone_fault s j E HI EG).
Qed.

(** Running a schedule. *)
Fixpoint grun (s : gstate) (l : list gaction) : goutcome :=
  match l with [] => GNext s | a :: r => match gstep s a with GNext s' => grun s' r | x => x end end.
Definition gprobes (l : list gaction) : list probe := rev (flat_map probes l).
Lemma grun_reach r n s ps l s' : greach r n s ps -> Forall (fun a => (a = GReset -> r = true) /\ Forall probe_ok (probes a)) l ->
  grun s l = GNext s' -> greach r n s' (gprobes l ++ ps).
Proof.
  intros HR HF. revert s ps HR. induction HF as [|a l [Ha Hp] HF IH]; intros s ps HR H; cbn [grun] in H.
  - injection H as <-. exact HR.
  - destruct (gstep s a) as [s1| | |] eqn:E; try discriminate.
    pose proof (IH s1 _ (greach_step r n s ps a s1 HR Ha Hp E) H) as G.
    unfold gprobes in *. cbn [flat_map]. rewrite rev_app_distr, <- app_assoc.
    assert (EP : rev (probes a) = probes a) by (destruct a as [[]| | |]; reflexivity). now rewrite EP.
Qed.

Definition report (t : nat) (keys : nat) : list gaction :=
  GThread (AReport t) :: repeat (GThread (AAdd t)) 25 ++ flat_map (fun _ => [GThread (AEnter t); GThread (AAdd t)]) (seq 0 keys) ++ [GThread (AEnd t)].

(** Thread 0 has reported three allocations and a destruction; string() has
    counted the first bucket, when thread 1 reports two more allocations up to
    the middle of its buckets; then string() goes on to its end. *)
Definition busy_print : list gaction :=
  map (fun p => GThread (AProbe 0 p)) [PInit; PAlloc 10 1; PAlloc 100 1; PAlloc 2000000 1; PDestroy 4096 9 7] ++ report 0 1
  ++ GString :: repeat (GJob 0) 11
  ++ map (fun p => GThread (AProbe 1 p)) [PAlloc 20 1; PAlloc 200 1] ++ GThread (AReport 1) :: repeat (GThread (AAdd 1)) 12
  ++ repeat (GJob 0) 35.
Definition lines (o : goutcome) (j : nat) : list (label * Z) :=
  match o with GNext s => match nth_error (jobs s) j with Some x => rev (j_out x) | None => [] end | _ => [] end.
Definition percents (o : goutcome) (j : nat) : list Z :=
  map snd (filter (fun y => match fst y with LCounter _ => false | _ => true end) (lines o j)).
Example C78_example : exists s, grun (ginit 2) busy_print = GNext s /\ greach false 2 s (gprobes busy_print ++ []) /\
  Z.of_nat (length (gprobes busy_print ++ [])) * 100 < M64 /\
  percents (GNext s) 0 = [20; 40; 60; 60; 60; 60; 60; 60; 0; 0; 100; 100; 100; 100; 100; 100].
Proof.
  destruct (grun (ginit 2) busy_print) as [s| | |] eqn:E; [|vm_compute in E; discriminate..].
  exists s. split; auto. split; [|split].
  - eapply grun_reach; [constructor| |exact E]. repeat (constructor; [split; [discriminate|repeat constructor; vm_compute; congruence]|]). constructor.
  - vm_compute. reflexivity.
  - vm_compute in E. injection E as <-. vm_compute. reflexivity.
Qed.
Example C78_uninterrupted_example :
  let l := map (fun p => GThread (AProbe 0 p)) [PInit; PAlloc 10 1; PAlloc 100 2; PDestroy 4096 9 7] ++ report 0 2 ++ [GString] in
  match grun (ginit 1) l with
  | GNext s => nth_error (jobs s) 0 = Some (new_job string_steps) /\ inserting (gs s) = false /\
               rev (firstn 3 (rev (lines (alone 47 0 s) 0))) = [(LLife 1000, 100); (LCounter (CLoc 1), 10); (LCounter (CLoc 2), 100)]
  | _ => False
  end.
Proof. vm_compute. auto. Qed.

(** C78 with reset(): the divisor is cleared before the buckets and counted up
    again, so string() can show 300%, ... *)
Theorem C78_reset_refuted : exists n s ps x l v, greach true n s ps /\ Z.of_nat (length ps) * 100 < M64 /\
  In x (jobs s) /\ In (l, v) (j_out x) /\ (forall c, l <> LCounter c) /\ v = 300.
Proof.
  pose (sch := map (fun p => GThread (AProbe 0 p)) [PInit; PAlloc 10 1; PAlloc 11 1; PAlloc 12 1; PDestroy 4096 9 7] ++ report 0 1
    ++ GString :: repeat (GJob 0) 11 ++ GReset :: repeat (GJob 1) 3
    ++ GThread (AProbe 0 (PAlloc 10 1)) :: GThread (AReport 0) :: repeat (GThread (AAdd 0)) 3 ++ [GJob 0]).
  destruct (grun (ginit 1) sch) as [s| | |] eqn:E; [|vm_compute in E; discriminate..].
  assert (HR : greach true 1 s (gprobes sch ++ [])).
  { eapply grun_reach; [constructor| |exact E]. repeat (constructor; [split; [reflexivity|repeat constructor; vm_compute; congruence]|]). constructor. }
  exists 1%nat, s, (gprobes sch ++ []).
  destruct (nth_error (jobs s) 0) as [x|] eqn:Ex.
  2:{ vm_compute in E. injection E as <-. vm_compute in Ex. discriminate. }
  exists x, (LSize 64), 300. split; auto. split; [vm_compute; reflexivity|]. split; [eapply nth_error_In; eauto|].
  split; [|split; [discriminate|reflexivity]].
  vm_compute in E. injection E as <-. vm_compute in Ex. injection Ex as <-. vm_compute. auto.
Qed.

(** ... and the loop over the map is not protected from threads reporting a new
    location. *)
Theorem C78_map_race_refuted : exists l, Forall (fun a => a <> GReset) l /\ grun (ginit 1) l = GRace.
Proof.
  exists (map (fun p => GThread (AProbe 0 p)) [PInit; PAlloc 10 1; PDestroy 4096 9 7] ++ report 0 1
    ++ GString :: repeat (GJob 0) 44 ++ GThread (AProbe 0 (PAlloc 10 2)) :: GThread (AReport 0) :: repeat (GThread (AAdd 0)) 25 ++ [GThread (AEnter 0)]).
  split; [|vm_compute; reflexivity]. repeat (constructor; [discriminate|]). constructor.
Qed.

(** ... and only when one thread inserts a key while another walks over the
    map or looks a key up: besides the races of C18, a thread about to insert
    while some call is walking, or a call about to walk while a thread inserts. *)
Theorem C78_race_only : forall s a, gstep s a = GRace <->
  (exists b, a = GThread b /\ mstep (gs s) b = Race) \/
  (exists t x k r y, a = GThread (AEnter t) /\ nth_error (m_threads (gs s)) t = Some x /\ t_inside x = false /\
     t_todo x = Some (CLoc k :: r) /\ ~ In k (g_keys (gs s)) /\ In y (jobs s) /\ j_inside y = true) \/
  (exists j y q u k r, a = GJob j /\ nth_error (jobs s) j = Some y /\ (j_todo y = JShowAll :: q \/ j_todo y = JStoreAll :: q) /\
     In u (m_threads (gs s)) /\ t_inside u = true /\ t_todo u = Some (CLoc k :: r) /\ ~ In k (g_keys (gs s))).
Proof. exact grace_only. Qed.

(** C78: it divides by zero exactly when the counter it divides by holds zero. *)
Theorem C78_fault_only : forall s a, gstep s a = GFault <->
  exists j y l c q, a = GJob j /\ nth_error (jobs s) j = Some y /\ j_todo y = JPercent l c :: q /\ g_ctr (gs s) c = 0.
Proof. exact gfault_only. Qed.

(** C79: from the moment reset() stores zero to a counter on, the counter and
    what is still unreported together are what was unreported at that moment
    and what has been recorded since; modulo 2^64, and exactly if that fits. *)
Theorem C79_since_reset : forall n s0 ps0 a c s1 ps s2, greach true n s0 ps0 -> stores s0 a c -> gstep s0 a = GNext s1 -> unstored c s1 ps s2 ->
  let T := sum_unreported c (m_threads (gs s0)) + total c ps in
  (g_ctr (gs s2) c + sum_unreported c (m_threads (gs s2))) mod M64 = T mod M64 /\
  (T < M64 -> g_ctr (gs s2) c + sum_unreported c (m_threads (gs s2)) = T).
Proof. exact since_reset. Qed.

(** C79: uninterrupted, reset() leaves zero in every counter and map entry,
    keeps the entries, and touches nothing that is unreported. *)
Theorem C79_uninterrupted : forall s j, nth_error (jobs s) j = Some (new_job reset_steps) -> inserting (gs s) = false ->
  exists s', alone (27 + length (g_keys (gs s))) j s = GNext s' /\
    nth_error (jobs s') j = Some (new_job []) /\ g_keys (gs s') = g_keys (gs s) /\ m_threads (gs s') = m_threads (gs s) /\
    forall c, g_ctr (gs s') c =
      match c with
      | CBucket k | CLife k => if (k <? 8)%nat then 0 else g_ctr (gs s) c
      | CLoc k => if existsb (Z.eqb k) (g_keys (gs s)) then 0 else g_ctr (gs s) c
      | _ => 0
      end.
Proof.
  intros s j E HI. destruct (reset_alone s j E HI) as (s' & H1 & H2 & H3 & H4 & H5). exists s'. do 4 (split; [assumption|]).
  intros c. rewrite H5, existsb_app.
  assert (EL : existsb (ctr_eqb c) (map CLoc (g_keys (gs s))) = match c with CLoc k => existsb (Z.eqb k) (g_keys (gs s)) | _ => false end).
  { clear. induction (g_keys (gs s)) as [|y l IH]; [destruct c; reflexivity|]. cbn [map existsb]. rewrite IH. destruct c; reflexivity. }
  assert (EF : existsb (ctr_eqb c) fixed_counters = match c with CBucket k | CLife k => (k <? 8)%nat | CLoc _ => false | _ => true end).
  { apply eq_true_iff_eq. rewrite existsb_ctr, in_fixed. destruct c; rewrite ?Nat.ltb_lt; intuition discriminate. }
  rewrite EL, EF. destruct c; cbn [orb]; try reflexivity; now rewrite ?orb_false_r.
Qed.

(** A reset() in the middle of a report: what the thread adds afterwards stays. *)
Definition reset_meets_report : list gaction :=
  map (fun p => GThread (AProbe 0 p)) [PInit; PAlloc 10 1; PAlloc 100 1] ++ GThread (AReport 0) :: repeat (GThread (AAdd 0)) 3
  ++ GReset :: repeat (GJob 0) 2.
Example C79_example : exists s0 s1 s2,
  grun (ginit 1) reset_meets_report = GNext s0 /\ greach true 1 s0 (gprobes reset_meets_report ++ []) /\
  stores s0 (GJob 0) CAlloc /\ gstep s0 (GJob 0) = GNext s1 /\
  grun s1 (repeat (GJob 0) 3 ++ repeat (GThread (AAdd 0)) 3 ++ [GJob 0]) = GNext s2 /\
  map (g_ctr (gs s0)) [CInit; CAlloc; CSpaceAllocated] = [0; 2; 0] /\
  map (g_ctr (gs s2)) [CInit; CAlloc; CSpaceAllocated] = [0; 0; 110] /\
  sum_unreported CAlloc (m_threads (gs s0)) = 0 /\ sum_unreported CSpaceAllocated (m_threads (gs s0)) = 110.
Proof.
  destruct (grun (ginit 1) reset_meets_report) as [s0| | |] eqn:E0; [|vm_compute in E0; discriminate..].
  destruct (gstep s0 (GJob 0)) as [s1| | |] eqn:E1; [|vm_compute in E0; injection E0 as <-; vm_compute in E1; discriminate..].
  destruct (grun s1 (repeat (GJob 0) 3 ++ repeat (GThread (AAdd 0)) 3 ++ [GJob 0])) as [s2| | |] eqn:E2.
  2,3,4: vm_compute in E0; injection E0 as <-; vm_compute in E1; injection E1 as <-; vm_compute in E2; discriminate.
  exists s0, s1, s2. split; auto. split.
  { eapply grun_reach; [constructor| |exact E0]. repeat (constructor; [split; [reflexivity|repeat constructor; vm_compute; congruence]|]). constructor. }
  vm_compute in E0; injection E0 as <-. vm_compute in E1; injection E1 as <-. vm_compute in E2; injection E2 as <-.
  split. { exists 0%nat. eexists. eexists. repeat split. }
  repeat split.
Qed.

(** C79, findings M4 and M5: after a reset(), string() divides by zero. *)
Theorem C79_then_string_refuted : exists n s ps, greach true n s ps /\ g_ctr (gs s) CAlloc = 3 /\ g_ctr (gs s) CDestruct = 1 /\
  exists s', grun s (GReset :: repeat (GJob 0) 28 ++ [GString]) = GNext s' /\ alone 46 1 s' = GFault.
Proof.
  pose (sch := map (fun p => GThread (AProbe 0 p)) [PInit; PAlloc 10 1; PAlloc 11 1; PAlloc 12 1; PDestroy 4096 9 7] ++ report 0 1).
  destruct (grun (ginit 1) sch) as [s| | |] eqn:E; [|vm_compute in E; discriminate..].
  exists 1%nat, s, (gprobes sch ++ []). split.
  { eapply grun_reach; [constructor| |exact E]. repeat (constructor; [split; [reflexivity|repeat constructor; vm_compute; congruence]|]). constructor. }
  destruct (grun s (GReset :: repeat (GJob 0) 28 ++ [GString])) as [s'| | |] eqn:E'.
  2,3,4: vm_compute in E; injection E as <-; vm_compute in E'; discriminate.
  vm_compute in E; injection E as <-. split; [reflexivity|]. split; [reflexivity|]. exists s'. split; auto.
  vm_compute in E'; injection E' as <-. vm_compute. reflexivity.
Qed.

Print Assumptions C78_percent_partial.
Print Assumptions C78_counters_partial.
Print Assumptions C78_uninterrupted.
Print Assumptions C78_reset_refuted.
Print Assumptions C78_map_race_refuted.
Print Assumptions C79_since_reset.
Print Assumptions C79_uninterrupted.
Print Assumptions C79_then_string_refuted.
Print Assumptions C78_race_only.
Print Assumptions C78_fault_only.
