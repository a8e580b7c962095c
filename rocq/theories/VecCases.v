(** Running concrete programs on stdb_vectors, for the examples. *)
Require Import ZArith List Bool.
From Verif Require Import Base VecSpec VecModel VecStatements.
Import ListNotations.
Open Scope Z_scope.

(** A malloc that serves up to 2^40 bytes; one that serves up to 100; one that serves nothing. *)
Definition plenty (n : Z) : bool := n <? 1099511627776.
Definition little (n : Z) : bool := n <? 100.
Definition nothing (n : Z) : bool := false.

Section Run.
Variable k : kind.
Variable sz : Z.
Variable dbg : bool.
Variable mal : Z -> bool.

Fixpoint vrun (ops : list vop) (s : vsys) (ss : list (option (list Z))) : option (vsys * list (option (list Z))) :=
  match ops with
  | [] => Some (s, ss)
  | o :: r => match vstep k sz dbg mal s o, vapply o ss with
              | Ok (s', Done _), Some (ss', _) => vrun r s' ss'
              | _, _ => None
              end
  end.
Fixpoint all_allowed (ops : list vop) (s : vsys) : Prop :=
  match ops with
  | [] => True
  | o :: r => allowed_v k sz dbg mal s o /\
              match vstep k sz dbg mal s o with Ok (s', Done _) => all_allowed r s' | _ => False end
  end.
(** [P] holds after the program, which is a permitted one. *)
Definition after (ops : list vop) (P : vsys -> list (option (list Z)) -> Prop) : Prop :=
  all_allowed ops vinit /\ match vrun ops vinit [] with Some (s, ss) => P s ss | None => False end.

Lemma vrun_reach : malloc_sane mal -> forall ops s ss s' ss',
  vreach k sz dbg s ss -> all_allowed ops s -> vrun ops s ss = Some (s', ss') -> vreach k sz dbg s' ss'.
Proof.
  intros MS. induction ops as [|o r IH]; intros s ss s' ss' H A E; cbn in *.
  - injection E as <- <-. exact H.
  - destruct A as [A1 A2]. destruct (vstep k sz dbg mal s o) as [[s1 [x|]]| |] eqn:E1; try discriminate.
    destruct (vapply o ss) as [[ss1 y]|] eqn:E2; [|discriminate].
    eapply IH; [|exact A2|exact E]. eapply vreach_done; eassumption.
Qed.
Lemma after_reach ops P : malloc_sane mal -> after ops P -> exists s ss, vreach k sz dbg s ss /\ P s ss.
Proof.
  intros MS [A H]. destruct (vrun ops vinit []) as [[s ss]|] eqn:E; [|contradiction].
  exists s, ss. split; [|exact H]. eapply vrun_reach; [exact MS|apply vreach_init|exact A|exact E].
Qed.
End Run.

(** What one more step does: the result of looking at the state after it. *)
Definition then_ {A} (m : res (vsys * outc)) (f : vsys -> res A) : res (A * outc) :=
  do (s, o) <- m; do x <- f s; Ok (x, o).
Definition contents (i : nat) (s : vsys) : res (list Z) := do v <- vget s i; viterate v.
Definition size_of (i : nat) (s : vsys) : res Z := do v <- vget s i; vsize v.
Definition capacity_of (i : nat) (s : vsys) : res Z := do v <- vget s i; vcapacity v.

Lemma plenty_sane : malloc_sane plenty.
Proof. unfold malloc_sane, plenty, HALF. intros n H. apply Z.ltb_lt in H. eapply Z.lt_trans; [exact H|reflexivity]. Qed.
Lemma little_sane : malloc_sane little.
Proof. unfold malloc_sane, little, HALF. intros n H. apply Z.ltb_lt in H. eapply Z.lt_trans; [exact H|reflexivity]. Qed.
Lemma nothing_sane : malloc_sane nothing.
Proof. discriminate. Qed.

(** Proves [after k sz dbg mal ops P] for concrete arguments. *)
Ltac allowed_tac := vm_compute; repeat match goal with
  | |- True => exact I
  | |- _ /\ _ => split
  | |- _ -> _ => let H := fresh in intro H; try discriminate H
  | |- _ \/ _ => first [left; solve [allowed_tac] | right; solve [allowed_tac]]
  | |- _ => first [reflexivity | discriminate | congruence]
  end.
