(** Property C81: the thread checks of strings (builds with CROSS_THREAD_CHECKING,
    without NDEBUG).

    [creach arena own s log]: threads have made calls on strings in some order,
    every one of them permitted by [own] and passing the checks; [log] has the
    accesses to the counts of shared buffers.  [orderly]: as long as strings
    share a buffer, only the thread that began to share it uses its count. *)
Require Import List Bool Arith Lia.
From Verif Require Import StrCheckModel StrCheckSpec StrCheckProofs.
Import ListNotations.

(** C81, arena strings: the checks keep the counts of shared buffers with one
    thread, if no thread changes a string that belongs to another. *)
Theorem C81_arena_partial : forall s log, creach true changes_own s log -> orderly (fun _ => None) log.
Proof. intros s log R. apply (reach_tagged true changes_own s log); [auto|exact R]. Qed.
(** C81, ordinary strings: the same if moreover no large string is copied a second time. *)
Theorem C81_ordinary_partial : forall s log, creach false copies_once s log -> orderly (fun _ => None) log.
Proof. intros s log R. apply (reach_tagged false copies_once s log); [auto|exact R]. Qed.
(** C81: no false alarm within one thread. *)
Theorem C81_one_thread : forall (arena : bool) t s log o, creach arena (fun _ u _ => u = t) s log -> (arena = true -> forall i, o <> Clone i) ->
  cstep arena s t o <> Refused.
Proof. exact one_thread_passes. Qed.
(** C81 is false of the second copy of an ordinary string (string.hpp:341-344
    tags the copy only if the original had no tag): it shares the buffer, has no
    tag, and every thread may destroy it. *)
Theorem C81_second_copy_unchecked : forall s t i b, str_at s i = Some (Str (Some b) (Some t)) ->
  exists s', cstep false s t (Copy i) = Went s' [Inc b t (refs s b)] /\ str_at s' (length (c_objs s)) = Some (Str (Some b) None) /\ 2 <= refs s' b /\
  forall u, exists s2, cstep false s' u (Destroy (length (c_objs s))) = Went s2 [Dec b u (refs s' b)].
Proof. exact second_copy. Qed.
Fixpoint cruns (arena : bool) (s : cst) (log : list access) (cs : list (tid * cop)) : option (cst * list access) :=
  match cs with
  | [] => Some (s, log)
  | (t, o) :: r => match cstep arena s t o with Went s' l => cruns arena s' (log ++ l) r | _ => None end
  end.
Lemma cruns_reach arena own cs : forall s log s' log', creach arena own s log -> (forall s t o, In (t, o) cs -> own s t o) -> cruns arena s log cs = Some (s', log') -> creach arena own s' log'.
Proof.
  induction cs as [|(t, o) cs IH]; intros s log s' log' R OK E; [injection E as <- <-; exact R|]. cbn [cruns] in E.
  destruct (cstep arena s t o) as [s1 l| |] eqn:S; try discriminate. eapply IH; [|intros s2 t2 o2 I; apply OK; right; exact I|exact E]. econstructor; [exact R|apply OK; left; reflexivity|exact S].
Qed.
(** A large string, two copies of it by thread 1, one of them destroyed by thread 2. *)
Theorem C81_ordinary_refuted : exists s log, creach false changes_own s log /\ ~ orderly (fun _ => None) log.
Proof.
  destruct (cruns false cinit [] [(1, New true); (1, Copy 0); (1, Copy 0); (2, Destroy 2)]) as [(s, log)|] eqn:E; [|vm_compute in E; discriminate].
  exists s, log. split; [eapply cruns_reach; [constructor| |exact E]; intros s1 t o I; cbn in I; repeat (destruct I as [I|I]; [injection I as <- <-; exact I|]); destruct I|].
  vm_compute in E. injection E as <- <-. cbn. intros (_ & H & _). specialize (H ltac:(lia)). discriminate.
Qed.
(** C81 is false if strings are changed: nothing checks the thread when a shared
    string gets characters of its own. *)
Theorem C81_change_refuted : forall arena, exists s log, creach arena (fun _ _ _ => True) s log /\ ~ orderly (fun _ => None) log.
Proof.
  intros arena. destruct (cruns arena cinit [] [(1, New true); (1, Copy 0); (2, Unshare 1)]) as [(s, log)|] eqn:E; [|destruct arena; vm_compute in E; discriminate].
  exists s, log. split; [eapply cruns_reach; [constructor| |exact E]; auto|].
  destruct arena; vm_compute in E; injection E as <- <-; cbn; intuition (try lia); match goal with H : _ -> Some _ = Some _ |- _ => specialize (H ltac:(lia)); discriminate end.
Qed.
Print Assumptions C81_arena_partial.
Print Assumptions C81_ordinary_partial.
Print Assumptions C81_one_thread.
Print Assumptions C81_second_copy_unchecked.
Print Assumptions C81_ordinary_refuted.
Print Assumptions C81_change_refuted.

(** Thread 1 shares a string, unshares it again and hands it over; thread 2 shares it then. *)
Example C81_arena_ex : exists s, cruns true cinit [] [(1, New true); (1, Copy 0); (1, Copy 1); (1, Destroy 1); (1, Destroy 2); (2, Move 0); (2, Copy 3); (2, Unshare 4); (2, Destroy 3)]
  = Some (s, [Inc 0 1 1; Inc 0 1 2; Dec 0 1 3; Dec 0 1 2; Look 0 2 1; Inc 0 2 1; Look 0 2 2; Dec 0 2 2; Dec 0 2 1]).
Proof. eexists. vm_compute. reflexivity. Qed.
Example C81_arena_refused_ex : forall s, cruns true cinit [] [(1, New true); (1, Copy 0)] = Some (s, [Inc 0 1 1]) ->
  cstep true s 2 (Copy 1) = Refused /\ cstep true s 2 (Move 1) = Refused /\ cstep true s 2 (Destroy 1) = Refused.
Proof. intros s E. vm_compute in E. injection E as <-. repeat split. Qed.
Example C81_ordinary_ex : exists s, cruns false cinit [] [(1, New true); (1, Copy 0); (1, Move 1); (1, Clone 2); (2, Destroy 3); (1, Destroy 2); (1, Destroy 0)]
  = Some (s, [Inc 0 1 1; Inc 0 1 2; Dec 0 1 3; Dec 1 2 1; Dec 0 1 2; Dec 0 1 1]).
Proof. eexists. vm_compute. reflexivity. Qed.
Example C81_ordinary_refused_ex : forall s, cruns false cinit [] [(1, New true); (1, Copy 0)] = Some (s, [Inc 0 1 1]) ->
  cstep false s 2 (Copy 1) = Refused /\ cstep false s 2 (Clone 0) = Refused /\ cstep false s 2 (Destroy 1) = Refused.
Proof. intros s E. vm_compute in E. injection E as <-. repeat split. Qed.
