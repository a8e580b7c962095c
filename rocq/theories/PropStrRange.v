(** Property C98: ranges given to a string by forward iterators that are not pointers.

    See PropString.v for [reach], [sees] and [gives]; strings of both kinds
    ([arena]), in both build modes, of every character type.  [fstep s i o cs] is
    the call [o] (insert, append, replace or assign with two iterators) on string
    [i], where the iterators of the range refer to the characters [cs]. *)
Require Import ZArith List Bool Lia.
From Verif Require Import Base StrSpec StrModel StrStatements StrCases StrProofs9 StrProofs12 StrRangeModel StrRangeSpec StrRangeProofs2 StrRangeProofs3.
Import ListNotations.
Open Scope Z_scope.

Section Ranges.
Context {ChT : CharType}.
Variables (dbg arena : bool) (mal : nat -> Z -> bool) (ar : Z).
Hypothesis MS : mal_sane mal.
Hypothesis AO : ar_ok dbg arena ar.
Notation reach := (reach dbg arena mal ar).
Notation fstep := (fstep dbg arena mal).

(** C98: the text gets what the range showed before the call, if no iterator
    refers to the string itself or the string shares its characters.  Missing:
    the iterators of the unshared string itself, for which it fails ([C98_refuted],
    [C98_append_refuted]). *)
Theorem C98_shown_partial : forall n s ss i c l o cs x l', reach n s -> short n -> sees s ss ->
  sget (s_objs s) i = Some c -> sget ss i = Some l -> Forall char_cell cs -> shows ss cs x -> slen x < limit ->
  Forall (outside i) cs \/ is_shared (s_heap s) c = Ret true (s_heap s) c ->
  f_apply o x l = Some l' -> gives (fstep s i o cs) (sset i (Some l') ss).
Proof. exact (reach_fwd dbg arena mal ar MS AO). Qed.

(** What happens to an unshared string instead.  Replacing at least as many
    characters as there are in the range: the characters are written one by one,
    each as shown by then, and the rest is erased. *)
Theorem C98_replace_in_place : forall n s ss i c l pos n1 cs x ss' l', reach n s -> short n -> sees s ss ->
  sget (s_objs s) i = Some c -> sget ss i = Some l -> Forall char_cell cs -> shows ss cs x -> is_shared (s_heap s) c = Ret false (s_heap s) c ->
  0 <= pos -> pos + n1 <= slen l -> slen cs <= n1 -> one_by_one i ss pos cs = Some ss' -> sget ss' i = Some l' ->
  gives (fstep s i (FReplace pos n1) cs) (sset i (Some (splice (pos + slen cs) (n1 - slen cs) [] l')) ss).
Proof. intros n s ss i c l pos n1 cs x ss' l' H SH SE Ec El CC SW SHD. intros. eapply reach_over; try eassumption. reflexivity. Qed.
Theorem C98_assign_in_place : forall n s ss i c l cs x ss' l', reach n s -> short n -> sees s ss ->
  sget (s_objs s) i = Some c -> sget ss i = Some l -> Forall char_cell cs -> shows ss cs x -> is_shared (s_heap s) c = Ret false (s_heap s) c ->
  slen cs <= slen l -> one_by_one i ss 0 cs = Some ss' -> sget ss' i = Some l' ->
  gives (fstep s i FAssign cs) (sset i (Some (stake (slen cs) l')) ss).
Proof.
  intros n s ss i c l cs x ss' l' H SH SE Ec El CC SW SHD L OB E1.
  assert (L1 : slen l' = slen l).
  { destruct (one_by_one_wr i cs ss 0 l ss' El OB) as (l2 & E & WR). subst ss'. rewrite (StrProofs8.sget_sset_eq _ _ _ _ El) in E1. injection E1 as ->.
    rewrite <- (StrProofs.slen_map Some l'), <- WR. rewrite StrRangeProofs.slen_wr; rewrite ?StrProofs.slen_map; lia. }
  pose proof (reach_over dbg arena mal ar MS AO n s ss i c l 0 (slen l) FAssign cs x ss' l' H SH SE Ec El CC SW SHD eq_refl ltac:(lia) ltac:(lia) L OB E1) as G.
  replace (stake (slen cs) l') with (splice (0 + slen cs) (slen l - slen cs) [] l'); [exact G|].
  unfold splice. replace (0 + slen cs + (slen l - slen cs)) with (slen l') by lia. rewrite Z.add_0_l. unfold sdrop, slen at 2. rewrite Nat2Z.id, skipn_all. cbn [app]. apply app_nil_r.
Qed.
(** Inserting or appending with room for the result: the room is made first, and
    then the characters are written one by one; [u] is what was behind the end. *)
Theorem C98_insert_in_place : forall n s ss i c l pos u cs x ss', reach n s -> short n -> sees s ss ->
  sget (s_objs s) i = Some c -> sget ss i = Some l -> Forall char_cell cs -> shows ss cs x -> has_room dbg arena (s_heap s) c (slen l + slen cs) -> slen cs < limit ->
  0 <= pos <= slen l -> slen u = slen cs -> Forall is_char u -> one_by_one i (sset i (Some (opened pos u l)) ss) pos cs = Some ss' ->
  gives (fstep s i (FInsert pos) cs) ss'.
Proof. intros. eapply reach_opened; try eassumption. reflexivity. Qed.
Theorem C98_append_in_place : forall n s ss i c l u cs x ss', reach n s -> short n -> sees s ss ->
  sget (s_objs s) i = Some c -> sget ss i = Some l -> Forall char_cell cs -> shows ss cs x -> has_room dbg arena (s_heap s) c (slen l + slen cs) -> slen cs < limit ->
  slen u = slen cs -> Forall is_char u -> one_by_one i (sset i (Some (opened (slen l) u l)) ss) (slen l) cs = Some ss' ->
  gives (fstep s i FAppend cs) ss'.
Proof. intros. eapply reach_opened; try eassumption; [reflexivity|unfold slen; lia]. Qed.

(** s.assign(s.rbegin(), s.rend()) of an unshared string: the second half stays,
    and the first becomes its mirror image. *)
Theorem C98_assign_backwards : forall n s ss i c l, reach n s -> short n -> sees s ss ->
  sget (s_objs s) i = Some c -> sget ss i = Some l -> is_shared (s_heap s) c = Ret false (s_heap s) c ->
  gives (fstep s i FAssign (backwards i (slen l))) (sset i (Some (mirrored l)) ss).
Proof. exact (reach_backwards dbg arena mal ar MS AO). Qed.
End Ranges.
(** The range shows the reversed text, and that is what comes out for no text
    but those that are their own reverse. *)
Theorem C98_backwards_shows : forall i ss l, sget ss i = Some l -> shows ss (backwards i (slen l)) (rev l).
Proof. exact backwards_shows. Qed.
Theorem C98_mirrored_wrong : forall l, l <> rev l -> mirrored l <> rev l.
Proof. intros l H E. apply H. exact (mirrored_wrong l E). Qed.
Print Assumptions C98_shown_partial.
Print Assumptions C98_replace_in_place.
Print Assumptions C98_assign_in_place.
Print Assumptions C98_insert_in_place.
Print Assumptions C98_append_in_place.
Print Assumptions C98_assign_backwards.
Print Assumptions C98_backwards_shows.
Print Assumptions C98_mirrored_wrong.

#[local] Existing Instance Char8.
(** Assigning "abc" from its reverse iterators gives "cbc". *)
Theorem C98_refuted : forall dbg, after dbg false plenty 0 [SNew [97; 98; 99]] (fun s ss =>
  shows ss (backwards 0 3) [99; 98; 97] /\ f_apply FAssign [99; 98; 97] [97; 98; 99] = Some [99; 98; 97] /\
  shown_by (fstep dbg false plenty s 0 FAssign (backwards 0 3)) = Some [Some (map Some [99; 98; 99])]).
Proof. intros []; vm_compute; repeat split. Qed.
(** Appending to a full string its reverse, or inserting it, reads the old buffer. *)
Theorem C98_append_refuted : forall dbg, after dbg false plenty 0 [SNew (letters 30)] (fun s ss =>
  shows ss (backwards 0 30) (rev (letters 30)) /\ StrCases.ends (fstep dbg false plenty s 0 FAppend (backwards 0 30)) = Undefined /\
  StrCases.ends (fstep dbg false plenty s 0 (FInsert 10) (backwards 0 30)) = Undefined).
Proof. intros []; vm_compute; repeat split. Qed.
Print Assumptions C98_refuted.
Print Assumptions C98_append_refuted.

(** A range from a list and from another string; replacing by more characters and by fewer. *)
Example C98_shown_ex : forall dbg arena, after dbg arena plenty (if arena then 7 else 0) [SNew (letters 30); SNew [1; 2; 3; 4; 5]] (fun s ss =>
  let cs := [Char 9; CharOf 0 2; CharOf 0 1; CharOf 0 0] in
  shows ss cs [9; 99; 98; 97] /\ Forall (outside 1) cs /\ Forall char_cell cs /\
  shown_by (fstep dbg arena plenty s 1 (FReplace 1 2) cs) = Some [Some (map Some (letters 30)); Some (map Some [1; 9; 99; 98; 97; 4; 5])] /\
  shown_by (fstep dbg arena plenty s 1 (FReplace 0 5) cs) = Some [Some (map Some (letters 30)); Some (map Some [9; 99; 98; 97])] /\
  shown_by (fstep dbg arena plenty s 1 (FInsert 4) cs) = Some [Some (map Some (letters 30)); Some (map Some [1; 2; 3; 4; 9; 99; 98; 97; 5])] /\
  shown_by (fstep dbg arena plenty s 1 FAppend cs) = Some [Some (map Some (letters 30)); Some (map Some [1; 2; 3; 4; 5; 9; 99; 98; 97])] /\
  shown_by (fstep dbg arena plenty s 1 FAssign cs) = Some [Some (map Some (letters 30)); Some (map Some [9; 99; 98; 97])]).
Proof.
  intros [] []; cbv zeta; vm_compute; (split; [reflexivity|]); (split; [repeat constructor; discriminate|]); (split; [repeat constructor; discriminate|]); repeat split.
Qed.
(** A shared string from its own reverse iterators. *)
Example C98_shared_ex : forall dbg, after dbg false plenty 0 [SNew (letters 260); SCopy 0] (fun s ss =>
  match s_objs s with Some c :: _ => is_shared (s_heap s) c = Ret true (s_heap s) c | _ => False end /\
  shown_by (fstep dbg false plenty s 0 FAssign (backwards 0 260)) = Some [Some (map Some (rev (letters 260))); Some (map Some (letters 260))]).
Proof. intros []; vm_compute; split; reflexivity. Qed.
(** In place: replacing by own characters, and inserting some of them with room. *)
Example C98_in_place_ex : forall dbg, after dbg false plenty 0 [SNew [1; 2; 3; 4; 5]; SOn 0 (UReserve 100)] (fun s ss =>
  let cs := [CharOf 0 3; CharOf 0 1; CharOf 0 2] in
  shows ss cs [4; 2; 3] /\ one_by_one 0 ss 1 cs = Some [Some [1; 4; 4; 4; 5]] /\
  match s_objs s with [Some c] => is_shared (s_heap s) c = Ret false (s_heap s) c /\ capacity (s_heap s) c = Ret 100 (s_heap s) c /\ category c = is_medium | _ => False end /\
  shown_by (fstep dbg false plenty s 0 (FReplace 1 4) cs) = Some [Some (map Some [1; 4; 4; 4])] /\
  opened 1 [7; 8; 9] [1; 2; 3; 4; 5] = [1; 2; 3; 4; 2; 3; 4; 5] /\
  one_by_one 0 [Some (opened 1 [7; 8; 9] [1; 2; 3; 4; 5])] 1 cs = Some [Some [1; 4; 4; 4; 2; 3; 4; 5]] /\
  shown_by (fstep dbg false plenty s 0 (FInsert 1) cs) = Some [Some (map Some [1; 4; 4; 4; 2; 3; 4; 5])] /\
  shown_by (fstep dbg false plenty s 0 FAppend (backwards 0 5)) = Some [Some (map Some [1; 2; 3; 4; 5; 5; 4; 3; 2; 1])]).
Proof. intros []; cbv zeta; vm_compute; repeat split. Qed.
