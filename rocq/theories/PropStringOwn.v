(** Properties C42 and C51: inserting a piece of a string into itself, in every case.

    See PropString.v for [reach], [sees] and [gives].  The piece is the [k]
    characters from position [off] of string [i], given by a pointer into its
    buffer; it is inserted at [pos].  append(first, last) is insert at the end
    (string.hpp:1338-1342).  [taken] is in StrOwnStatements. *)
Require Import ZArith List Bool Lia.
From Verif Require Import Base StrSpec StrModel StrStatements StrOwnStatements StrCases StrProofs9 StrProofs12 StrOwnProofs StrOwnProofs2.
Import ListNotations.
Open Scope Z_scope.

Section Own.
Context {ChT : CharType}.
Variables (dbg : bool) (mal : nat -> Z -> bool).
Hypothesis MS : mal_sane mal.
Notation reach := (reach dbg false mal 0).
Notation step := (step dbg false mal 0).

(** C42: the piece of a shared string is inserted as it was, wherever it is. *)
Theorem C42_insert_own_shared : forall n s ss i c l pos off k, reach n s -> short n -> sees s ss ->
  sget (s_objs s) i = Some c -> sget ss i = Some l -> 0 <= pos <= slen l -> 0 <= off -> 0 <= k -> off + k <= slen l ->
  is_shared (s_heap s) c = Ret true (s_heap s) c ->
  gives (step s (SOn i (UInsert pos (Piece i off k)))) (sset i (Some (splice pos 0 (piece off k l) l)) ss).
Proof. exact (reach_insert_shared dbg false mal 0 MS eq_refl). Qed.
(** C42: with room for the result, what is inserted is [taken]: the piece if it
    starts not behind the position, and otherwise the end of it is not what it was. *)
Theorem C42_insert_own_in_place : forall n s ss i c l pos off k, reach n s -> short n -> sees s ss ->
  sget (s_objs s) i = Some c -> sget ss i = Some l -> 0 <= pos <= slen l -> 0 <= off -> 0 <= k -> off + k <= slen l ->
  has_room dbg false (s_heap s) c (slen l + k) ->
  gives (step s (SOn i (UInsert pos (Piece i off k)))) (sset i (Some (splice pos 0 (taken pos off k l) l)) ss).
Proof. exact (reach_insert_taken dbg false mal 0 MS eq_refl). Qed.
(** C42: so behind the position and with no character twice, the result is never the right one. *)
Theorem C42_insert_own_in_place_wrong : forall n s ss i c l pos off k s', reach n s -> short n -> sees s ss ->
  sget (s_objs s) i = Some c -> sget ss i = Some l -> NoDup l -> 0 <= pos < off -> 0 < k -> off + k <= slen l ->
  has_room dbg false (s_heap s) c (slen l + k) ->
  step s (SOn i (UInsert pos (Piece i off k))) = SRet s' -> ~ sees s' (sset i (Some (splice pos 0 (piece off k l) l)) ss).
Proof. exact (reach_insert_wrong dbg false mal 0 MS eq_refl). Qed.
(** C42: an unshared string with a buffer that is too small never does it: the
    behaviour is undefined, unless there was no memory for the new buffer. *)
Theorem C42_insert_own_grows : forall n s ss i c cap l pos off k, reach n s -> short n -> sees s ss ->
  sget (s_objs s) i = Some c -> sget ss i = Some l -> category c <> is_small -> is_shared (s_heap s) c = Ret false (s_heap s) c ->
  capacity (s_heap s) c = Ret cap (s_heap s) c -> 0 <= pos <= slen l -> 0 <= off -> 0 < k -> off + k <= slen l -> cap < slen l + k ->
  match step s (SOn i (UInsert pos (Piece i off k))) with
  | SUB _ => True
  | SThr e s' => e = BadAlloc /\ h_refused (s_heap s') = true
  | STerm h => h_refused h = true
  | _ => False
  end.
Proof. exact (reach_insert_dies dbg mal MS). Qed.
(** C42: a string kept in its object that outgrows it takes the bytes of the object,
    which by then hold the address of the new buffer, the new length and the new capacity. *)
Theorem C42_insert_own_outgrows : forall n s ss i c l pos off k, reach n s -> short n -> sees s ss ->
  sget (s_objs s) i = Some c -> sget ss i = Some l -> category c = is_small -> 0 <= pos <= slen l -> 0 <= off -> 0 <= k -> off + k <= slen l -> 23 / csize < slen l + k ->
  exists addr, gives (step s (SOn i (UInsert pos (Piece i off k)))) (sset i (Some (splice pos 0 (piece off k (object_bytes addr (slen l + k))) l)) ss).
Proof. exact (reach_insert_outgrows dbg false mal 0 MS eq_refl). Qed.
End Own.

(** The same of arena strings. *)
#[local] Existing Instance Char8.
Section ArenaOwn.
Variables (dbg : bool) (mal : nat -> Z -> bool) (ar : Z).
Hypothesis MS : mal_sane mal.
Hypothesis AR : dbg = true -> ar <> 0.
Notation reach := (reach dbg true mal ar).
Notation step := (step dbg true mal ar).
(** C51: a shared arena string. *)
Theorem C51_insert_own_shared : forall n s ss i c l pos off k, reach n s -> short n -> sees s ss ->
  sget (s_objs s) i = Some c -> sget ss i = Some l -> 0 <= pos <= slen l -> 0 <= off -> 0 <= k -> off + k <= slen l ->
  is_shared (s_heap s) c = Ret true (s_heap s) c ->
  gives (step s (SOn i (UInsert pos (Piece i off k)))) (sset i (Some (splice pos 0 (piece off k l) l)) ss).
Proof. exact (reach_insert_shared dbg true mal ar MS AR). Qed.
(** C51: with room for the result, [taken] is inserted. *)
Theorem C51_insert_own_in_place : forall n s ss i c l pos off k, reach n s -> short n -> sees s ss ->
  sget (s_objs s) i = Some c -> sget ss i = Some l -> 0 <= pos <= slen l -> 0 <= off -> 0 <= k -> off + k <= slen l ->
  has_room dbg true (s_heap s) c (slen l + k) ->
  gives (step s (SOn i (UInsert pos (Piece i off k)))) (sset i (Some (splice pos 0 (taken pos off k l) l)) ss).
Proof. exact (reach_insert_taken dbg true mal ar MS AR). Qed.
(** C51: so behind the position and with no character twice, the result is never the right one. *)
Theorem C51_insert_own_in_place_wrong : forall n s ss i c l pos off k s', reach n s -> short n -> sees s ss ->
  sget (s_objs s) i = Some c -> sget ss i = Some l -> NoDup l -> 0 <= pos < off -> 0 < k -> off + k <= slen l ->
  has_room dbg true (s_heap s) c (slen l + k) ->
  step s (SOn i (UInsert pos (Piece i off k))) = SRet s' -> ~ sees s' (sset i (Some (splice pos 0 (piece off k l) l)) ss).
Proof. exact (reach_insert_wrong dbg true mal ar MS AR). Qed.
(** C51: an unshared string of an arena whose buffer is too small does it right,
    as an arena does not take the old buffer back. *)
Theorem C51_insert_own_grows : ar <> 0 -> forall n s ss i c cap l pos off k, reach n s -> short n -> sees s ss ->
  sget (s_objs s) i = Some c -> sget ss i = Some l -> category c <> is_small -> is_shared (s_heap s) c = Ret false (s_heap s) c ->
  capacity (s_heap s) c = Ret cap (s_heap s) c -> 0 <= pos <= slen l -> 0 <= off -> 0 <= k -> off + k <= slen l -> cap < slen l + k ->
  gives (step s (SOn i (UInsert pos (Piece i off k)))) (sset i (Some (splice pos 0 (piece off k l) l)) ss).
Proof. exact (reach_insert_arena dbg mal ar MS). Qed.
(** C51: a string kept in its object that outgrows it. *)
Theorem C51_insert_own_outgrows : forall n s ss i c l pos off k, reach n s -> short n -> sees s ss ->
  sget (s_objs s) i = Some c -> sget ss i = Some l -> category c = is_small -> 0 <= pos <= slen l -> 0 <= off -> 0 <= k -> off + k <= slen l -> 23 < slen l + k ->
  exists addr, gives (step s (SOn i (UInsert pos (Piece i off k)))) (sset i (Some (splice pos 0 (piece off k (object_bytes addr (slen l + k))) l)) ss).
Proof. exact (reach_insert_outgrows dbg true mal ar MS AR). Qed.
End ArenaOwn.
(** C42: what [taken] is: the piece, when it starts not behind the position ... *)
Theorem C42_taken_in_front : forall (l : list Z) pos off k, 0 <= off <= pos -> 0 <= k -> taken pos off k l = piece off k l.
Proof. exact taken_front. Qed.
(** ... and when it starts [k] or more behind, the [k] characters before it. *)
Theorem C42_taken_behind : forall (l : list Z) pos off k, 0 <= k -> pos + k <= off -> taken pos off k l = piece (off - k) k l.
Proof. exact taken_behind. Qed.
Print Assumptions C42_insert_own_shared.
Print Assumptions C42_insert_own_in_place.
Print Assumptions C42_insert_own_in_place_wrong.
Print Assumptions C42_insert_own_grows.
Print Assumptions C42_insert_own_outgrows.
Print Assumptions C51_insert_own_shared.
Print Assumptions C51_insert_own_in_place.
Print Assumptions C51_insert_own_in_place_wrong.
Print Assumptions C51_insert_own_grows.
Print Assumptions C51_insert_own_outgrows.
Print Assumptions C42_taken_in_front.
Print Assumptions C42_taken_behind.

Example C42_own_shared_ex : forall dbg, after dbg false plenty 0 [SNew (letters 260); SCopy 0] (fun s ss =>
  match s_objs s with Some c :: _ => is_shared (s_heap s) c = Ret true (s_heap s) c | _ => False end /\
  shown_by (step dbg false plenty 0 s (SOn 0 (UInsert 0 (Piece 0 1 2)))) = Some [Some (map Some (98 :: 99 :: letters 260)); Some (map Some (letters 260))]).
Proof. intros []; vm_compute; split; reflexivity. Qed.
Example C42_own_in_place_ex : forall dbg, after dbg false plenty 0 [SNew [1; 2; 3; 4; 5; 6; 7]; SOn 0 (UReserve 100)] (fun s ss =>
  match s_objs s with [Some c] => is_shared (s_heap s) c = Ret false (s_heap s) c /\ capacity (s_heap s) c = Ret 100 (s_heap s) c /\ category c = is_medium | _ => False end /\
  shown_by (step dbg false plenty 0 s (SOn 0 (UInsert 1 (Piece 0 2 3)))) = Some [Some (map Some [1; 3; 4; 2; 2; 3; 4; 5; 6; 7])] /\
  taken 1 2 3 [1; 2; 3; 4; 5; 6; 7] = [3; 4; 2] /\ taken 1 4 3 [1; 2; 3; 4; 5; 6; 7] = [2; 3; 4] /\ taken 1 0 3 [1; 2; 3; 4; 5; 6; 7] = [1; 2; 3]).
Proof. intros []; vm_compute; repeat split. Qed.
(** Appending a string to itself by iterators. *)
Example C42_own_grows_ex : forall dbg, after dbg false plenty 0 [SNew (letters 30)] (fun s ss =>
  match s_objs s with [Some c] => is_shared (s_heap s) c = Ret false (s_heap s) c /\ capacity (s_heap s) c = Ret 30 (s_heap s) c /\ category c = is_medium | _ => False end /\
  ends (step dbg false plenty 0 s (SOn 0 (UInsert 30 (Piece 0 0 30)))) = Undefined).
Proof. intros []; vm_compute; repeat split. Qed.
(** Release builds: the twenty letters a..t, with eight "letters" inserted at 3: the length 28 and seven zeros. *)
Example C42_own_outgrows_ex : after false false plenty 0 [SNew (letters 20)] (fun s ss =>
  match s_objs s with [Some c] => category c = is_small | _ => False end /\
  shown_by (step false false plenty 0 s (SOn 0 (UInsert 3 (Piece 0 8 8)))) = Some [Some (map Some (splice 3 0 [28; 0; 0; 0; 0; 0; 0; 0] (letters 20)))]).
Proof. vm_compute; split; reflexivity. Qed.
Example C51_own_outgrows_ex : forall dbg, after dbg true plenty 7 [SNew (letters 20)] (fun s ss =>
  match s_objs s with [Some c] => category c = is_small | _ => False end /\
  shown_by (step dbg true plenty 7 s (SOn 0 (UInsert 3 (Piece 0 8 12)))) = Some [Some (map Some (splice 3 0 [32; 0; 0; 0; 0; 0; 0; 0; 46; 0; 0; 0] (letters 20)))]).
Proof. intros []; vm_compute; split; reflexivity. Qed.
Example C51_own_grows_ex : forall dbg, after dbg true plenty 7 [SNew (letters 30); SNew (letters 260)] (fun s ss =>
  match s_objs s with [Some c; Some d] => is_shared (s_heap s) c = Ret false (s_heap s) c /\ capacity (s_heap s) c = Ret 30 (s_heap s) c /\ category c = is_medium /\
    is_shared (s_heap s) d = Ret false (s_heap s) d /\ category d = is_large | _ => False end /\
  shown_by (step dbg true plenty 7 s (SOn 0 (UInsert 1 (Piece 0 2 3)))) = Some [Some (map Some (splice 1 0 [99; 100; 101] (letters 30))); Some (map Some (letters 260))] /\
  shown_by (step dbg true plenty 7 s (SOn 1 (UInsert 1 (Piece 1 2 9)))) = Some [Some (map Some (letters 30)); Some (map Some (splice 1 0 (piece 2 9 (letters 260)) (letters 260)))]).
Proof. intros []; vm_compute; repeat split. Qed.
Example C51_own_in_place_ex : forall dbg, after dbg true plenty 7 [SNew [1; 2; 3; 4; 5; 6; 7]; SNew (letters 300); SCopy 1] (fun s ss =>
  match s_objs s with _ :: Some c :: _ => is_shared (s_heap s) c = Ret true (s_heap s) c | _ => False end /\
  shown_by (step dbg true plenty 7 s (SOn 0 (UInsert 1 (Piece 0 2 3)))) = Some [Some (map Some [1; 3; 4; 2; 2; 3; 4; 5; 6; 7]); Some (map Some (letters 300)); Some (map Some (letters 300))] /\
  shown_by (step dbg true plenty 7 s (SOn 1 (UInsert 1 (Piece 1 2 3)))) = Some [Some (map Some [1; 2; 3; 4; 5; 6; 7]); Some (map Some (splice 1 0 [99; 100; 101] (letters 300))); Some (map Some (letters 300))]).
Proof. intros []; vm_compute; repeat split. Qed.
