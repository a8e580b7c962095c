(** Property C77: appending to strings asks for memory rarely.
    Both kinds of strings ([arena], with the allocator [ar]), assertions on or off ([dbg]), any malloc [mal]. *)
Require Import ZArith List Bool Lia.
From Verif Require Import Base StrSpec StrModel StrStatements StrCases StrGrowStatements StrGrowProofs.
Import ListNotations.
Open Scope Z_scope.

Section C77.
Context {ChT : CharType}.
Variables (dbg arena : bool) (mal : nat -> Z -> bool) (ar : Z).
Hypotheses (MS : mal_sane mal) (AO : ar_ok dbg arena ar).
Notation reach := (StrStatements.reach dbg arena mal ar).
Notation step := (StrStatements.step dbg arena mal ar).

(** C77: a call that appends something and returns asked for no memory and kept the capacity, or
    asked once and has half as much capacity again.  Except for debug builds' small strings, it asks only
    when the characters do not fit. *)
Theorem C77_one_append : forall n s ss i c o cap s', reach n s -> short n -> sees s ss -> sget (s_objs s) i = Some c ->
  allowed ar ss (SOn i o) -> appends o -> capacity (s_heap s) c = Ret cap (s_heap s) c -> step s (SOn i o) = SRet s' ->
  exists c' cap', sget (s_objs s') i = Some c' /\ capacity (s_heap s') c' = Ret cap' (s_heap s') c' /\ size c <= size c' <= cap' /\
    (requests (s_heap s) (s_heap s') 0 /\ cap' = cap /\ (category c' = is_small <-> category c = is_small) \/
     requests (s_heap s) (s_heap s') 1 /\ 1 + 3 * cap / 2 <= cap' /\ category c' <> is_small /\ (sso_off dbg arena = false \/ category c <> is_small -> cap < size c')).
Proof. exact (append_step dbg arena mal ar MS AO). Qed.
(** C77: so [k] requests during any number of such calls mean that the capacity grew to (3/2)^k times
    what it was, and the size to (3/2)^(k-1) times that capacity: the number of requests is logarithmic in the size. *)
Theorem C77_geometric : forall i m n s s' c cap, reach n s -> short (m + n) -> appending dbg arena mal ar i m s s' ->
  sget (s_objs s) i = Some c -> capacity (s_heap s) c = Ret cap (s_heap s) c ->
  exists c' cap' k, sget (s_objs s') i = Some c' /\ capacity (s_heap s') c' = Ret cap' (s_heap s') c' /\ size c <= size c' <= cap' /\
    requests (s_heap s) (s_heap s') k /\ (k <= m)%nat /\ 3 ^ Z.of_nat k * cap <= 2 ^ Z.of_nat k * cap' /\
    (sso_off dbg arena = false \/ category c <> is_small ->
     (sso_off dbg arena = false \/ category c' <> is_small) /\ (forall j, k = S j -> 3 ^ Z.of_nat j * cap < 2 ^ Z.of_nat j * size c')).
Proof. exact (appending_grows dbg arena mal ar MS AO). Qed.
End C77.
Print Assumptions C77_one_append.
Print Assumptions C77_geometric.

#[local] Existing Instance Char8.

(** 400 characters one by one: seven requests. *)
Definition cap_of (s : sys) (i : nat) : option Z :=
  match sget (s_objs s) i with Some c => match capacity (s_heap s) c with Ret cap _ _ => Some cap | _ => None end | None => None end.
Fixpoint pushes (n : nat) : list sop := match n with O => [] | S n => SOn 0 (UPush 65) :: pushes n end.
Example C77_ex : after false false plenty 0 [SNew (letters 20)] (fun s0 ss0 => cap_of s0 0 = Some 23 /\
  match run false false plenty 0 (pushes 400) s0 ss0 with
  | Some (s, ss) => requests (s_heap s0) (s_heap s) 7 /\ cap_of s 0 = Some 544 /\ option_map slen (nth 0 ss None) = Some 420
  | None => False
  end).
Proof. vm_compute. repeat split. Qed.
(** A shared string, and one of its pieces appended to it. *)
Example C77_shared_ex : after false false plenty 0 [SNew (letters 300); SCopy 0] (fun s _ => cap_of s 0 = Some 300 /\
  match step false false plenty 0 s (SOn 0 (UAppend (Piece 0 2 7))) with
  | SRet s' => requests (s_heap s) (s_heap s') 1 /\ cap_of s' 0 = Some 451
  | _ => False
  end).
Proof. vm_compute. repeat split. Qed.
(** What such a program does is meant by [appending]. *)
Example run_is_appending : forall dbg arena mal ar i, mal_sane mal -> ar_ok dbg arena ar -> forall ops n s ss s' ss', reach dbg arena mal ar n s -> sees s ss ->
  Z.of_nat n + slen ops < 2 ^ 63 - 2 -> Forall appends ops -> run dbg arena mal ar (map (SOn i) ops) s ss = Some (s', ss') -> appending dbg arena mal ar i (length ops) s s'.
Proof. exact run_appending. Qed.
(** Two calls on an arena string, the second within the capacity. *)
Example C77_arena_ex : forall dbg, after dbg true plenty 7 [SNew (letters 23)] (fun s ss =>
  match run dbg true plenty 7 (map (SOn 0) [UPush 65; UAppendN 5 66]) s ss with
  | Some (s', _) => requests (s_heap s) (s_heap s') 1 /\ cap_of s' 0 = Some 46
  | None => False
  end).
Proof. intros []; vm_compute; repeat split. Qed.
