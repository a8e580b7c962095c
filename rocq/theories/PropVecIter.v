(** Property C76: iterators of stdb_vector. *)
Require Import ZArith List Bool Lia.
From Verif Require Import Base BaseProofs VecSpec VecModel VecStatements VecCases VecProofs VecProofs2 VecProofs3 VecProofs4 VecProofs5
  VecIterSpec VecIterModel VecIterStatements VecIterProofs.
Import ListNotations.
Open Scope Z_scope.

Section Iter.
Variable k : kind.
Variable sz : Z.
Variable dbg : bool.
Hypothesis SZ : size_ok sz.

Lemma is_rep s ss i v l : vreach k sz dbg s ss -> nth_error (vs s) i = Some (Some v) -> lget ss i = Some l -> vrep k sz v l.
Proof.
  intros H E L. destruct (vreach_inv k sz dbg SZ s ss H) as [R _].
  destruct (srep_get' k sz s ss i v R E) as (l1 & L1 & V). congruence.
Qed.

(** Every program of iterator expressions that stays between begin() and end()
    does to the elements and the iterators what it means for positions; the
    vector afterwards is like after a history of assignments to elements.
    Missing: negative indices, refuted below. *)
Theorem C76_positions_partial : forall cs s ss i v l l1 ps xs,
  vreach k sz dbg s ss -> nth_error (vs s) i = Some (Some v) -> lget ss i = Some l ->
  imeanings l [] cs = Some (l1, ps, xs) -> Forall forwards cs ->
  exists v1 rs, irun k v [] cs = Ok (v1, rs, xs) /\ Forall2 (points v1) rs ps /\
    vreach k sz dbg (with_vec s i v1) (lset i (Some l1) ss).
Proof.
  intros cs s ss i v l l1 ps xs H E L M FW.
  destruct (irun_ok k sz dbg SZ cs s ss i v l [] [] l1 ps xs H E L (Forall2_nil _) FW M) as (v1 & rs & R & F & H1).
  exists v1, rs. split; [exact R|]. split; [|exact H1]. eapply F2_weaken; [|exact F]. intros x y [P _]; exact P.
Qed.

(** C76: loops from begin() to end() and from rbegin() to rend() end and see the
    elements in order and in reverse. *)
Theorem C76_loops : forall s ss i v l fuel,
  vreach k sz dbg s ss -> nth_error (vs s) i = Some (Some v) -> lget ss i = Some l -> (length l < fuel)%nat ->
  forward fuel v = Ok l /\ backward fuel v = Ok (rev l).
Proof.
  intros s ss i v l fuel H E L FU. pose proof (is_rep s ss i v l H E L) as R.
  destruct (begin_at k sz v l R) as (p & EB & PB). destruct (end_at k sz v l R) as (q & EE & PE).
  unfold forward, backward. rewrite EB, EE. cbn [bind]. split.
  - eapply walk_ok; eauto.
  - rewrite (rwalk_ok k sz v l p R PB (Z.to_nat (len l)) fuel q (len l) PE eq_refl) by (unfold len; lia).
    unfold take, len. rewrite Nat2Z.id, firstn_all. reflexivity.
Qed.

(** C76 is false for negative indices: operator[] takes a size_t, so it[-n] adds
    2^64 - n to the pointer. *)
Theorem C76_negative_index_refuted : forall s ss i v l p z n x,
  vreach k sz dbg s ss -> nth_error (vs s) i = Some (Some v) -> lget ss i = Some l ->
  points v p (Some z) -> at_ l (z + n) = Some x -> - HALF <= n < 0 -> at_offset v p n = Undef.
Proof.
  intros s ss i v l p z n x H E L P A N. pose proof (is_rep s ss i v l H E L) as R. apply at_inv in A. destruct A as [A _].
  destruct v as [b size cap|]; [|contradiction]. destruct R as (Hs & Hc & Hb & HB). destruct SZ as [S1 S2].
  assert (NM : n mod M64 = n + M64) by (symmetry; apply Z.mod_unique with (-1); unfold HALF, M64 in *; lia).
  unfold at_offset. rewrite NM. destruct b as [b|]; cbn in P.
  - subst p. destruct HB as (_ & BL & _). cbn [advance]. rewrite BL.
    replace (z + (n + M64) <=? cap) with false; [rewrite andb_false_r; reflexivity|].
    symmetry. apply Z.leb_gt. unfold HALF, M64 in *. nia.
  - destruct P as [-> ->]. cbn [advance]. replace (n + M64 =? 0) with false; [reflexivity|]. symmetry. apply Z.eqb_neq. unfold HALF, M64 in *. lia.
Qed.
End Iter.

(** A vector of three, reversed through iterators; an iterator moved from; an
    empty vector without a buffer. *)
Definition three : list vop := [VNewRange [7; 8; 9]; VNew].
Definition reversing : list icmd :=
  [IBegin; IEnd; IDistance 1 0; IPreDec 1; IRead 0; IRead 1; IWrite 0 9; IWriteAt 0 2 7; ICompare 0 1; IPostInc 0; IPlus 0 1;
   ICompare 3 1; IReadAt 2 1; IMove 3; IAssignMove 0 4; INull; IAssignMove 1 1; ISubFrom 1 2; ICompare 1 2; IConst 1; IMinus 1 0;
   IPlusRev 2 2].
Definition result (i : nat) (cs : list icmd) (s : vsys) : option (option (list Z) * list iter * list Z) :=
  match nth_error (vs s) i with
  | Some (Some v) =>
      match irun KMove v [] cs with
      | Ok (v1, rs, xs) => Some (match viterate v1 with Ok l => Some l | _ => None end, rs, xs)
      | _ => None
      end
  | _ => None
  end.
Example C76_positions_example : after KMove 16 true plenty three (fun s ss =>
  ss = [Some [7; 8; 9]; Some []] /\ Forall forwards reversing /\
  imeanings [7; 8; 9] [] reversing =
    Some ([9; 8; 7], [Some 2; Some 0; Some 0; None; None; None; Some 0; Some 0; Some 2],
          [0; 0; 3; 0; 7; 9; 0; 0; -1; 0; 0; 0; 8; 0; 0; 0; 0; 0; 0; 0; 0; 0]) /\
  result 0 reversing s =
    Some (Some [9; 8; 7], [Some 2; Some 0; Some 0; None; None; None; Some 0; Some 0; Some 2],
          [0; 0; 3; 0; 7; 9; 0; 0; -1; 0; 0; 0; 8; 0; 0; 0; 0; 0; 0; 0; 0; 0])).
Proof.
  split; [allowed_tac|]. split; [reflexivity|]. split; [|vm_compute; split; reflexivity].
  unfold reversing. repeat constructor; cbn; lia.
Qed.
(** Not allowed, and undefined: before begin(), and an iterator moved from. *)
Example C76_outside_example : after KMove 16 true plenty three (fun s ss =>
  imeanings [7; 8; 9] [] [IBegin; IPreDec 0] = None /\ result 0 [IBegin; IPreDec 0] s = None /\
  imeanings [7; 8; 9] [] [IBegin; IMove 0; IRead 0] = None /\ result 0 [IBegin; IMove 0; IRead 0] s = None /\
  result 1 [IBegin; IEnd; ICompare 0 1; IDistance 1 0; IPlus 0 0] s = Some (Some [], [None; None; None], [0; 0; 0; 0; 0])).
Proof. split; [allowed_tac|]. vm_compute. repeat split. Qed.
Example C76_loops_example : after KMove 16 true plenty three (fun s ss =>
  match vs s with
  | [Some v; Some w] => forward 4 v = Ok [7; 8; 9] /\ backward 4 v = Ok [9; 8; 7] /\ forward 1 w = Ok [] /\ backward 1 w = Ok []
  | _ => False
  end).
Proof. split; [allowed_tac|]. vm_compute. repeat split. Qed.
Example C76_negative_index_example : after KMove 16 true plenty three (fun s ss =>
  match vs s with
  | [Some v; _] => points v (Some 2) (Some 2) /\ at_ [7; 8; 9] (2 + -1) = Some 8 /\ at_offset v (Some 2) (-1) = Undef
  | _ => False
  end).
Proof. split; [allowed_tac|]. vm_compute. repeat split. Qed.

Print Assumptions C76_positions_partial.
Print Assumptions C76_loops.
Print Assumptions C76_negative_index_refuted.
