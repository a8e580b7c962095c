(** Properties C17 to C20: the arena metrics. *)
Require Import ZArith List Bool Lia.
From Verif Require Import Base BaseProofs ArenaSpec ArenaModel ArenaStatements ArenaCases
  MetricsSpec MetricsModel MetricsStatements MetricsProofs MetricsProofs2.
Import ListNotations.
Open Scope Z_scope.

(** The thread-local counters after the probes [ps] (newest first). *)
Definition recorded (ps : list probe) : local := fold_right (fun p l => apply_probe l p) local_reset ps.

(** C17: every bucket holds the number of reported sizes in its interval. *)
Theorem C17_bucket : forall ps k, (k < 8)%nat ->
  l_ctr (recorded ps) (CBucket k) = countif (in_interval size_bounds k) (sizes_of ps) mod M64.
Proof. intros ps k _. unfold recorded. rewrite local_total, total_bucket. reflexivity. Qed.

Theorem C17_lifetime_bucket : forall ps k, (k < 8)%nat ->
  l_ctr (recorded ps) (CLife k) = countif (in_interval life_bounds k) (lifetimes_of ps) mod M64.
Proof. intros ps k _. unfold recorded. rewrite local_total, total_life. reflexivity. Qed.

(** C17: a size is in exactly one interval unless it exceeds 2^20 (finding M1). *)
Theorem C17_one_bucket : forall x,
  (x <= 1048576 <-> exists k, (k < 8)%nat /\ in_interval size_bounds k x = true) /\
  (forall j k, in_interval size_bounds j x = true -> in_interval size_bounds k x = true -> j = k).
Proof.
  assert (LT : forall k x, in_interval size_bounds k x = true -> (k < 8)%nat).
  { intros k x H. destruct (Nat.lt_ge_cases k 8) as [L|L]; auto. unfold in_interval in H.
    assert (E : nth_error size_bounds k = None) by (apply nth_error_None; exact L). rewrite E in H. discriminate. }
  intros x. assert (D : countif (fun n => n <=? 1048576) [x] = fold_right (fun k s => countif (in_interval size_bounds k) [x] + s) 0 (seq 0 8))
    by (symmetry; apply partition_size).
  assert (U : forall f : Z -> bool, countif f [x] = if f x then 1 else 0) by (intros f; rewrite countif_cons; destruct (f x); reflexivity).
  rewrite !U in D. cbn [seq fold_right] in D. rewrite !U in D.
  split.
  - split.
    + intros H. destruct (Z.leb_spec x 1048576); [|lia].
      destruct (in_interval size_bounds 0 x) eqn:E0; [exists 0%nat; split; [lia|auto]|].
      destruct (in_interval size_bounds 1 x) eqn:E1; [exists 1%nat; split; [lia|auto]|].
      destruct (in_interval size_bounds 2 x) eqn:E2; [exists 2%nat; split; [lia|auto]|].
      destruct (in_interval size_bounds 3 x) eqn:E3; [exists 3%nat; split; [lia|auto]|].
      destruct (in_interval size_bounds 4 x) eqn:E4; [exists 4%nat; split; [lia|auto]|].
      destruct (in_interval size_bounds 5 x) eqn:E5; [exists 5%nat; split; [lia|auto]|].
      destruct (in_interval size_bounds 6 x) eqn:E6; [exists 6%nat; split; [lia|auto]|].
      destruct (in_interval size_bounds 7 x) eqn:E7; [exists 7%nat; split; [lia|auto]|]. lia.
    + intros (k & Hk & H). destruct (Z.leb_spec x 1048576); [lia|]. exfalso.
      do 8 (destruct k as [|k]; [rewrite H in D; repeat match type of D with context [if ?b then _ else _] => destruct b end; lia|]). lia.
  - intros j k Hj Hk. pose proof (LT _ _ Hj). pose proof (LT _ _ Hk).
    assert (SEP : forall j k, (j < k)%nat -> (k < 8)%nat -> in_interval size_bounds j x = true -> in_interval size_bounds k x = true -> False).
    { clear. intros j k H1 H2 Hj Hk.
      do 8 (destruct k as [|k]; [
        do 8 (destruct j as [|j]; [
          first [lia | apply andb_prop in Hj as [Hj _]; apply andb_prop in Hk as [_ Hk]; apply Z.leb_le in Hj; apply Z.ltb_lt in Hk; lia]|]); lia|]). lia. }
    destruct (Nat.lt_trichotomy j k) as [L|[L|L]]; [exfalso; eapply SEP; eauto|exact L|exfalso; eapply SEP; eauto].
Qed.

(** C17: the buckets add up to the number of sizes not above the largest bound. *)
Theorem C17_sum : forall ps, countif (fun n => n <=? 1048576) (sizes_of ps) < M64 ->
  fold_right (fun k s => l_ctr (recorded ps) (CBucket k) + s) 0 (seq 0 8) = countif (fun n => n <=? 1048576) (sizes_of ps).
Proof. exact bucket_sum. Qed.
Theorem C17_lifetime_sum : forall ps, countif (fun n => n <=? 1000) (lifetimes_of ps) < M64 ->
  fold_right (fun k s => l_ctr (recorded ps) (CLife k) + s) 0 (seq 0 8) = countif (fun n => n <=? 1000) (lifetimes_of ps).
Proof. exact life_sum. Qed.

Definition some_probes : list probe :=
  [PDestroy 4096 100 7; PReset 8192 50; PAlloc 1048577 3; PAlloc 65 3; PAlloc 64 2; PAlloc 0 2; PNewBlock; PInit].
Example C17_example : map (fun k => l_ctr (recorded some_probes) (CBucket k)) (seq 0 8) = [2; 1; 0; 0; 0; 0; 0; 0] /\
  map (fun k => l_ctr (recorded some_probes) (CLife k)) (seq 0 8) = [0; 0; 1; 0; 0; 0; 0; 0] /\
  countif (fun n => n <=? 1048576) (sizes_of some_probes) = 3.
Proof. vm_compute. auto. Qed.

(** C18: in every interleaving, global plus unreported equals recorded, for
    every counter and every map entry; modulo 2^64, and exactly if the true
    total fits. Missing: executions in which two threads meet in the shared map;
    that is undefined ([C18_map_race_refuted]). *)
Theorem C18_conservation_partial : forall n s ps c, mreach n s ps ->
  (g_ctr s c + sum_unreported c (m_threads s)) mod M64 = total c ps mod M64 /\
  (total c ps < M64 -> g_ctr s c + sum_unreported c (m_threads s) = total c ps).
Proof. exact conservation. Qed.

Fixpoint mrun (s : mstate) (l : list action) : outcome :=
  match l with [] => Next s | a :: r => match mstep s a with Next s' => mrun s' r | x => x end end.

(** Two threads in the middle of reporting, one of which then records more. *)
Definition schedule : list action :=
  [AProbe 0 (PAlloc 10 1); AProbe 1 (PAlloc 100 2); AReport 0; AAdd 0; AAdd 0; AAdd 0; AReport 1; AAdd 1; AAdd 1; AAdd 1; AAdd 0; AAdd 0; AAdd 0]
  ++ repeat (AAdd 1) 22 ++ [AEnter 1; AAdd 1; AEnd 1; AProbe 1 (PAlloc 1 1)].
Example C18_example :
  match mrun (minit 2) schedule with
  | Next s => g_ctr s CAlloc = 2 /\ sum_unreported CAlloc (m_threads s) = 1 /\
              g_ctr s CSpaceAllocated = 110 /\ sum_unreported CSpaceAllocated (m_threads s) = 1 /\
              g_ctr s (CLoc 1) = 0 /\ sum_unreported (CLoc 1) (m_threads s) = 11
  | _ => False
  end.
Proof. vm_compute. repeat split. Qed.

Lemma mrun_reach n s ps l s' : mreach n s ps -> Forall (fun a => match a with AProbe _ p => probe_ok p | _ => True end) l ->
  mrun s l = Next s' -> mreach n s' (rev (flat_map (fun a => match a with AProbe _ p => [p] | _ => [] end) l) ++ ps).
Proof.
  intros HR HF. revert s ps HR. induction HF as [|a l Ha HF IH]; intros s ps HR H; simpl in H.
  - injection H as <-. exact HR.
  - destruct (mstep s a) as [s1| |] eqn:E; try discriminate. destruct a as [t p|t|t|t|t].
    + simpl. rewrite <- app_assoc. apply (IH s1); auto. simpl. eapply mreach_probe; eauto.
    + simpl. apply (IH s1); auto. eapply mreach_other; eauto. congruence.
    + simpl. apply (IH s1); auto. eapply mreach_other; eauto. congruence.
    + simpl. apply (IH s1); auto. eapply mreach_other; eauto. congruence.
    + simpl. apply (IH s1); auto. eapply mreach_other; eauto. congruence.
Qed.
Example C18_example_reachable : exists s, mrun (minit 2) schedule = Next s /\
  mreach 2 s [PAlloc 1 1; PAlloc 100 2; PAlloc 10 1].
Proof.
  destruct (mrun (minit 2) schedule) as [s| |] eqn:E; [|vm_compute in E; discriminate|vm_compute in E; discriminate].
  exists s. split; auto. apply (mrun_reach 2 _ [] schedule s (mreach_init 2)); auto.
  repeat constructor; vm_compute; congruence.
Qed.

(** C18, finding M2: the map of the global metrics is a plain unordered_map, so
    two threads reporting new locations at once race. *)
Theorem C18_map_race_refuted : exists l, mrun (minit 2) l = Race.
Proof.
  exists ([AProbe 0 (PAlloc 10 1); AProbe 1 (PAlloc 100 2); AReport 0; AReport 1]
          ++ repeat (AAdd 0) 25 ++ repeat (AAdd 1) 25 ++ [AEnter 0; AEnter 1]).
  vm_compute. reflexivity.
Qed.

(** ... and only then: some thread is inside operator[], and one of the two
    keys is not yet in the map. *)
Theorem C18_race_only : forall s a, mstep s a = Race ->
  exists t u x y k k', nth_error (m_threads s) t = Some x /\ In y (m_threads s) /\ a = AEnter t /\
    u = t_local x /\ t_inside x = false /\ t_inside y = true /\ inside_key y = Some k' /\
    (exists r, t_todo x = Some (CLoc k :: r)) /\
    (~ In k (g_keys s) \/ ~ In k' (g_keys s)).
Proof.
  assert (HK : forall k l, has_key k l = false -> ~ In k l).
  { intros k l H Hin. assert (has_key k l = true); [|congruence]. apply existsb_exists. exists k. split; auto. apply Z.eqb_refl. }
  intros s a H. destruct a as [t p|t|t|t|t]; simpl in H;
    destruct (nth_error (m_threads s) t) as [[l [q|] b]|] eqn:Et; try discriminate.
  - destruct q as [|[] q]; try discriminate. destruct b; [discriminate|].
    destruct (existsb _ (m_threads s)) eqn:E; [|discriminate].
    apply existsb_exists in E as (y & Hy & Ey). destruct (inside_key y) as [k'|] eqn:Ek; [|discriminate].
    exists t, l, {| t_local := l; t_todo := Some (CLoc key :: q); t_inside := false |}, y, key, k'.
    split; auto. split; auto. split; auto. split; auto. split; auto.
    split. { unfold inside_key in Ek. destruct (t_inside y); [auto|discriminate]. }
    split; auto. split; [eexists; reflexivity|].
    apply orb_prop in Ey as [Ey|Ey]; apply negb_true_iff, HK in Ey; auto.
  - destruct q as [|c q]; [discriminate|]. destruct c; try discriminate. destruct b; discriminate.
  - destruct q; discriminate.
Qed.

(** C19: for arenas with the metrics hooks installed and not moved from, in
    every reachable state the probes have run without a null or stale cookie,
    and the counters state the facts of the history. *)
Theorem C19_counters : forall e A s clock site, fresh_cookies (e_cookie e) -> hreach e A s ->
  let h := m_hist (s_mem s) in
  exists m, metrics_of clock site h = Ok m /\
    l_ctr (hm_local m) CInit = countif constructed h mod M64 /\
    l_ctr (hm_local m) CDestruct = countif destroyed h mod M64 /\
    l_ctr (hm_local m) CResets = countif was_reset h mod M64 /\
    l_ctr (hm_local m) CNewblock = countif block_obtained h mod M64 /\
    l_ctr (hm_local m) CAlloc = countif alloc_reported h mod M64 /\
    l_ctr (hm_local m) CSpaceAllocated = sum_of bytes_reported h mod M64 /\
    l_ctr (hm_local m) CSpaceResettled = sum_of used_by_resets h mod M64 /\
    l_ctr (hm_local m) CSpaceUsed = sum_of used_by_destroyed h mod M64 /\
    l_ctr (hm_local m) CSpaceWasted = sum_of wasted_reported h mod M64 /\
    forall k, l_ctr (hm_local m) (CBucket k) = countif (reported_size_in k) h mod M64.
Proof.
  intros e A s clock site Fr HR h. destruct (MI_reach clock site e A s Fr HR) as [_ _ _ (m & E & _) H5 H6 H7 H8].
  fold h in E, H5, H6, H7, H8. exists m. split; auto.
  assert (CA : sum_of (told CAlloc) h = countif alloc_reported h).
  { clear. induction h as [|x h IH]; auto. rewrite sum_of_cons, countif_cons, IH. destruct x; reflexivity. }
  assert (CB : forall k, sum_of (told (CBucket k)) h = countif (reported_size_in k) h).
  { clear. intros k. induction h as [|x h IH]; auto. rewrite sum_of_cons, countif_cons, IH. destruct x; reflexivity. }
  assert (SE : forall f g, (forall x, f x = g x) -> sum_of f h = sum_of g h).
  { clear. intros f g H. induction h as [|x h IH]; auto. rewrite !sum_of_cons, IH, H. reflexivity. }
  rewrite !(metrics_told clock site h m) by (exact I || exact E).
  rewrite H5, H6, H7, H8, CA.
  do 5 (split; [reflexivity|]).
  split; [f_equal; apply SE; intros []; reflexivity|]. split; [f_equal; apply SE; intros []; reflexivity|].
  split; [f_equal; apply SE; intros []; reflexivity|]. split; [f_equal; apply SE; intros []; reflexivity|].
  intros k. rewrite (metrics_told clock site h m) by (exact I || exact E). now rewrite CB.
Qed.

(** A concrete environment with fresh cookies and a program using all operations. *)
Definition next_cookie (h : history) : Z := 1 + fold_right Z.max 0 (live_cookies h).
Lemma next_cookie_fresh : fresh_cookies next_cookie.
Proof.
  intros h Hin. assert (G : forall l x, In x l -> x <= fold_right Z.max 0 l).
  { induction l as [|y l IH]; intros x []; simpl; [lia|]. specialize (IH x H). lia. }
  apply G in Hin. unfold next_cookie in Hin. lia.
Qed.
Definition env_fresh : env := {| e_debug := true; e_alloc := ArenaCases.bump 0 (2 ^ 60); e_cookie := next_cookie |}.
Definition busy_hooked : list sop :=
  [ SNew hooked; SNew hooked; SOp 0 (OAllocate 24 8); SOp 1 (OAllocate 7 16); SOp 0 (OCreateArray 16 300 9);
    SOp 0 (OCreate 40 9 (Some 52) [OAllocate 5 8; OOwn 777 53]); SReset 0; SOp 0 (OAllocate 100 8); SDestroy 0; SNew hooked; SDestroy 2 ].
Definition hooked_opb (o : sop) : bool :=
  match o with
  | SNew p => o_on_init p && o_on_reset p && o_on_alloc p && o_on_newblock p && o_on_destroy p
  | SMove _ => false | _ => true end.
Lemma runp_hreach e A l : forallb hooked_opb l = true -> forall s last s' x, hreach e A s ->
  runp e A s last l = Some (s', x) -> hreach e A s'.
Proof.
  induction l as [|o l IH]; simpl; intros HF s last s' x HR H.
  - now injection H as <- _.
  - apply andb_prop in HF as [Ho HF]. destruct (permittedb A s o) eqn:Ep; [|discriminate].
    destruct (step e s o) as [[s1 y]| |] eqn:Es; try discriminate.
    eapply (IH HF s1 y); eauto. eapply hreach_step; eauto; [now apply permittedb_ok|].
    destruct o; simpl in *; auto; [|discriminate]. repeat (apply andb_prop in Ho as [Ho ?]). repeat split; auto.
Qed.
Definition tick (h : history) : Z := 1000000 * Z.of_nat (length h).
Example C19_example : exists s x, runp env_fresh 32 init 0 busy_hooked = Some (s, x) /\ hreach env_fresh 32 s /\
  match metrics_of tick (fun _ => 5) (m_hist (s_mem s)) with
  | Ok m => map (l_ctr (hm_local m)) [CInit; CDestruct; CResets; CNewblock; CAlloc; CSpaceAllocated; CLoc 5; CLife 3; CBucket 0; CBucket 1]
            = [3; 2; 1; 3; 6; 4976; 4976; 1; 4; 1]
  | _ => False
  end.
Proof.
  assert (H : match runp env_fresh 32 init 0 busy_hooked with
    | Some (s, _) => match metrics_of tick (fun _ => 5) (m_hist (s_mem s)) with
       | Ok m => map (l_ctr (hm_local m)) [CInit; CDestruct; CResets; CNewblock; CAlloc; CSpaceAllocated; CLoc 5; CLife 3; CBucket 0; CBucket 1]
            = [3; 2; 1; 3; 6; 4976; 4976; 1; 4; 1]
       | _ => False
       end
    | None => False end) by (vm_compute; reflexivity).
  destruct (runp env_fresh 32 init 0 busy_hooked) as [[s x]|] eqn:E; [|contradiction].
  exists s, x. split; auto. split; [eapply runp_hreach; eauto; [reflexivity|constructor]|]. exact H.
Qed.

(** C19, finding M3: destroying a moved-from arena reports a null cookie, which
    the destruction probe dereferences. *)
Theorem C19_moved_from_refuted : exists e A l s, fresh_cookies (e_cookie e) /\ run e init l = Ok s /\ reach e A s /\
  metrics_of tick (fun _ => 5) (m_hist (s_mem s)) = Undef.
Proof.
  exists env_fresh, 32, [SNew hooked; SMove 0; SDestroy 0].
  destruct (runp env_fresh 32 init 0 [SNew hooked; SMove 0; SDestroy 0]) as [[s x]|] eqn:E; [|vm_compute in E; discriminate].
  exists s. split; [exact next_cookie_fresh|].
  split; [|split; [eapply runp_reach; eauto; constructor|]].
  - vm_compute in E. injection E as <- <-. vm_compute. reflexivity.
  - vm_compute in E. injection E as <- <-. vm_compute. reflexivity.
Qed.

(** C20: once everything recorded has been reported, with at least one
    allocation and one destruction, string() shows, per bound, the percentage
    (rounded down) of sizes, resp. lifetimes, not above it. *)
Definition percent_up_to (l : list Z) (bound : Z) : Z := countif (fun n => n <=? bound) l * 100 / Z.of_nat (length l).
Theorem C20_string_partial : forall n s ps, mreach n s ps ->
  (forall c, sum_unreported c (m_threads s) = 0) ->
  sizes_of ps <> [] -> lifetimes_of ps <> [] -> Z.of_nat (length ps) * 100 < M64 ->
  global_string (g_ctr s) =
    Ok (map (percent_up_to (sizes_of ps)) [64; 128; 256; 512; 1024; 2048; 4096; 1048576],
        map (percent_up_to (lifetimes_of ps)) [1; 5; 10; 50; 100; 200; 500; 1000]).
Proof.
  intros n s ps HR HU HS HL HB. apply string_ok; auto. intros c Hc.
  destruct (conservation n s ps c HR) as [_ H]. specialize (H Hc). rewrite HU in H. lia.
Qed.

(** With non-zero counters it never faults, whatever the schedule. *)
Theorem C20_no_fault_partial : forall g, g CAlloc <> 0 -> g CDestruct <> 0 -> exists r, global_string g = Ok r.
Proof.
  intros g H1 H2. unfold global_string.
  destruct (percentages_ok g CBucket 8 0 0 _ H1) as (a & -> & _). destruct (percentages_ok g CLife 8 0 0 _ H2) as (b & -> & _).
  simpl. eauto.
Qed.

(** C20, finding M4: it divides by zero before the first allocation or the first destruction. *)
Theorem C20_string_refuted : exists n s ps, mreach n s ps /\ sizes_of ps <> [] /\
  (forall c, sum_unreported c (m_threads s) = 0) /\ global_string (g_ctr s) = Undef.
Proof.
  pose (l := [AProbe 0 PInit; AProbe 0 (PAlloc 10 1); AReport 0] ++ repeat (AAdd 0) 25 ++ [AEnter 0; AAdd 0; AEnd 0]).
  destruct (mrun (minit 1) l) as [s| |] eqn:E; [|vm_compute in E; discriminate|vm_compute in E; discriminate].
  exists 1%nat, s, [PAlloc 10 1; PInit]. split; [|split; [|split]].
  - apply (mrun_reach 1 _ [] l s (mreach_init 1)); auto. repeat constructor; vm_compute; congruence.
  - discriminate.
  - intros c. cbv in E. injection E as <-. reflexivity.
  - cbv in E. injection E as <-. reflexivity.
Qed.

Example C20_example : exists s,
  mreach 1 s some_probes /\ (forall c, sum_unreported c (m_threads s) = 0) /\ sizes_of some_probes <> [] /\ lifetimes_of some_probes <> [] /\
  global_string (g_ctr s) = Ok ([50; 75; 75; 75; 75; 75; 75; 75], [0; 0; 100; 100; 100; 100; 100; 100]).
Proof.
  pose (l := map (AProbe 0) (rev some_probes) ++ [AReport 0] ++ repeat (AAdd 0) 25 ++ [AEnter 0; AAdd 0; AEnter 0; AAdd 0; AEnd 0]).
  destruct (mrun (minit 1) l) as [s| |] eqn:E; [|vm_compute in E; discriminate|vm_compute in E; discriminate].
  exists s. split; [|split; [|split; [discriminate|split; [discriminate|]]]].
  - apply (mrun_reach 1 _ [] l s (mreach_init 1)); auto. repeat constructor; vm_compute; congruence.
  - intros c. cbv in E. injection E as <-. reflexivity.
  - cbv in E. injection E as <-. reflexivity.
Qed.

Print Assumptions C17_bucket.
Print Assumptions C17_lifetime_bucket.
Print Assumptions C17_one_bucket.
Print Assumptions C17_sum.
Print Assumptions C17_lifetime_sum.
Print Assumptions C18_conservation_partial.
Print Assumptions C18_map_race_refuted.
Print Assumptions C18_race_only.
Print Assumptions C19_counters.
Print Assumptions C19_moved_from_refuted.
Print Assumptions C20_string_partial.
Print Assumptions C20_no_fault_partial.
Print Assumptions C20_string_refuted.
