(** Property C99: null pointers given to a string as a C string.

    See PropString.v for [reach] and [sees].  Strings of both kinds, in both build
    modes, of every character type.  A pointer is [Null] or [At memory]. *)
Require Import ZArith List Bool Lia.
From Verif Require Import Base StrSpec StrModel StrStatements StrCases StrFindSpec StrFindModel StrFindProofs StrApiModel StrNullModel.
Import ListNotations.
Open Scope Z_scope.

(** Calls that make a new string *)
Definition makes_one (c : ccall) : bool := match c with CNew | CPlusM _ | CPlus _ | CPlusL _ | CPlusLM _ => true | _ => false end.
(** lhs + s and s + rhs, except of a temporary on the left *)
Definition concatenates (c : ccall) : bool := match c with CPlus _ | CPlusL _ | CPlusLM _ => true | _ => false end.
(** The call with the characters [x] instead of the pointer *)
Definition with_text (c : ccall) (x : list Z) : sop :=
  match c with
  | CNew => SNew x
  | CAppend i => SOn i (UAppend (Chars x))
  | CAssign i => SOn i (UAssign (Chars x))
  | CInsert i pos => SOn i (UInsert pos (Chars x))
  | CReplace i pos n1 | CReplaceIt i pos n1 => SOn i (UReplace pos n1 (Chars x))
  | CPlusM j => SPlusCRM j x
  | CPlus j => SPlusCR j x
  | CPlusL j => SPlusCL x j
  | CPlusLM j => SPlusCLM x j
  end.

(** What the operators ask *)
Definition related (o : relop) (x y : list Z) : Prop :=
  match o with
  | Req => x = y | Rne => x <> y | Rlt => lex_lt x y | Rgt => lex_lt y x
  | Rle => lex_lt x y \/ x = y | Rge => lex_lt y x \/ x = y
  end.

Section Null.
Context {ChT : CharType}.
Variables (dbg arena : bool) (mal : nat -> Z -> bool) (ar : Z).
Notation run := (run_ccall dbg arena mal ar).

Lemma sees_more s ss : sees s ss -> sees {| s_heap := s_heap s; s_objs := s_objs s ++ [None] |} (ss ++ [None]).
Proof.
  intros (L & H). split; cbn [s_objs s_heap]; [rewrite !app_length, L; reflexivity|].
  intros i. specialize (H i). unfold sget in *. destruct (Nat.lt_ge_cases i (length ss)) as [Q|Q].
  - rewrite !nth_error_app1 by lia. exact H.
  - rewrite !nth_error_app2 by lia. rewrite L. destruct (i - length ss)%nat as [|k]; [exact I|]. destruct k; exact I.
Qed.

(** C99: the call throws std::logic_error, whatever the positions are, and every
    string shows what it showed; no string is made.  Missing: operator+ except of
    a temporary on the left ([C99_plus_refuted]). *)
Theorem C99_written_partial : forall s ss c, sees s ss -> concatenates c = false ->
  exists s', run s c Null = SThr LogicError s' /\ s_heap s' = s_heap s /\ sees s' (if makes_one c then ss ++ [None] else ss).
Proof.
  intros s ss c H K. destruct c; try discriminate K; cbn [run_ccall traitsLength with_length makes_one];
    eexists; (split; [reflexivity|]); (split; [reflexivity|]); auto using sees_more.
Qed.
(** The other overloads of operator+ have undefined behaviour, for every string. *)
Theorem C99_plus_refuted : forall s c, concatenates c = true -> run s c Null = SUB (s_heap s).
Proof. intros s c K. destruct c; try discriminate K; reflexivity. Qed.
(** Of other pointers the calls are those of the other properties. *)
Theorem C99_text : forall s c memory x, c_string memory x -> run s c (At memory) = sstep dbg arena mal ar s (with_text c x).
Proof.
  intros s c memory x H. destruct (length_cstring _ _ H) as (E & _).
  assert (T : ctext (At memory) (slen x) = x).
  { destruct H as (_ & rest & ->). cbn [ctext]. unfold stake, slen. rewrite Nat2Z.id, firstn_app, firstn_all, Nat.sub_diag, app_nil_r. reflexivity. }
  destruct c; cbn [run_ccall traitsLength raw_length with_text]; rewrite E; cbn [of_res with_length]; rewrite T; reflexivity.
Qed.

(** ** Reading: the string is ([a], [n]) *)
(** compare throws, whatever the positions are. *)
Theorem C99_compare : forall a n pos1 n1, compare_c a n Null = RThrow LogicError /\ compare_at_c a n pos1 n1 Null = RThrow LogicError.
Proof. intros. split; reflexivity. Qed.
(** The members that search and the comparison operators end the program: the
    exception leaves a noexcept function. *)
Theorem C99_find_refuted : forall f a n pos, find_c f a n Null pos = RTerm /\ contains_c a n Null = RTerm.
Proof. intros. split; reflexivity. Qed.
Theorem C99_operators_refuted : forall left o a n, rel_c left o a n Null = RTerm.
Proof. intros [] [] a n; reflexivity. Qed.
(** So does contains of a default-constructed, empty view. *)
Theorem C99_contains_view_refuted : forall a n, contains_v a n Null 0 = RTerm.
Proof. reflexivity. Qed.
(** starts_with and ends_with have undefined behaviour. *)
Theorem C99_starts_refuted : forall a n, starts_with_c a n Null = RUB /\ ends_with_c a n Null = RUB.
Proof. split; reflexivity. Qed.
(** Of other pointers the results are those of the other properties. *)
Theorem C99_read_text : forall a n memory x pos pos1 n1, c_string memory x ->
  (let r := find_c in let q := list_mem memory in let k := slen x in
   r Find a n (At memory) pos = of_res (find a q n k pos) /\ r RFind a n (At memory) pos = of_res (rfind a q n k pos) /\
   r FirstOf a n (At memory) pos = of_res (find_first_of a q n k pos) /\ r LastOf a n (At memory) pos = of_res (find_last_of a q n k pos) /\
   r FirstNotOf a n (At memory) pos = of_res (find_first_not_of a q n k pos) /\ r LastNotOf a n (At memory) pos = of_res (find_last_not_of a q n k pos)) /\
  contains_c a n (At memory) = of_res (contains_cstr a n memory) /\
  starts_with_c a n (At memory) = of_res (starts_with_cstr a n memory) /\
  ends_with_c a n (At memory) = of_res (ends_with_cstr a n memory) /\
  compare_c a n (At memory) = of_res (compare_cstr a n memory) /\
  compare_at_c a n pos1 n1 (At memory) = match compare_at a n pos1 n1 (list_mem memory) (slen x) with
                                         | Ok (Some r) => RVal r | Ok None => RThrow OutOfRange | AssertFail => RAssert | Undef => RUB end.
Proof.
  intros a n memory x pos pos1 n1 H. destruct (length_cstring _ _ H) as (E & _).
  assert (CE : compare_c a n (At memory) = of_res (compare_cstr a n memory)).
  { unfold compare_c, compare_cstr, compare. cbn [traitsLength raw_length]. rewrite E. reflexivity. }
  assert (FE : forall f, find_c f a n (At memory) pos = of_res (find_n f a (list_mem memory) n (slen x) pos)).
  { intros f; unfold find_c; cbn [traitsLength raw_length]; rewrite E; cbn [of_res rbind cmem]; destruct (find_n f a (list_mem memory) n (slen x) pos); reflexivity. }
  split; [cbv zeta; rewrite !FE; repeat split|].
  split; [unfold contains_c, find_c, contains_cstr, find_cstr; cbn [traitsLength raw_length]; rewrite E; cbn [of_res rbind cmem bind find_n]; destruct (find a (list_mem memory) n (slen x) 0); reflexivity|].
  split; [unfold starts_with_c, starts_with_cstr; cbn [raw_length]; rewrite E; cbn [of_res rbind cmem bind]; destruct (starts_with a n (list_mem memory) (slen x)); reflexivity|].
  split; [unfold ends_with_c, ends_with_cstr; cbn [raw_length]; rewrite E; cbn [of_res rbind cmem bind]; destruct (ends_with a n (list_mem memory) (slen x)); reflexivity|].
  split; [exact CE|].
  unfold compare_at_c; cbn [traitsLength raw_length]; rewrite E; cbn [of_res rbind cmem]; destruct (compare_at a n pos1 n1 (list_mem memory) (slen x)) as [[r|]| |]; reflexivity.
Qed.
(** The operators with a pointer on either side, on the text of the string and the characters there. *)
Theorem C99_operators_text : forall h c l memory x left o, reads h c l -> c_string memory x ->
  exists b, rel_c left o (str_mem h c) (size c) (At memory) = RVal b /\
  (b = true <-> if left then related o x l else related o l x).
Proof.
  intros h c l memory x left o R H. destruct (length_cstring _ _ H) as (E & _). destruct (reads_like _ _ _ R) as (L & S). apply like_more in L.
  assert (CE : compare_c (str_mem h c) (size c) (At memory) = RVal (lex l x)).
  { pose proof (compare_cstr_like _ _ _ _ L H) as Q. rewrite <- S in Q. unfold compare_cstr in Q. rewrite E in Q. cbn [bind] in Q.
    unfold compare_c, compare. cbn [traitsLength raw_length]. rewrite E. cbn [of_res rbind cmem]. rewrite Q. reflexivity. }
  destruct (lex_orders l x) as (O1 & O2 & O3). pose proof (lex_lt_total l x) as T.
  assert (N : forall u v, lex_lt u v -> (lex_lt v u \/ u = v) -> False).
  { intros u v X [Y| ->]; [exact (lex_lt_irrefl _ (lex_lt_trans _ _ _ X Y))|exact (lex_lt_irrefl _ X)]. }
  assert (G1 : (lex l x <? 0) = true <-> lex_lt l x) by (rewrite Z.ltb_lt; exact O1).
  assert (G2 : (0 <? lex l x) = true <-> lex_lt x l) by (rewrite Z.ltb_lt; exact O3).
  assert (G3 : (lex l x =? 0) = true <-> l = x) by (rewrite Z.eqb_eq; exact O2).
  assert (S1 : l = x <-> x = l) by (split; intros ->; reflexivity).
  pose proof (N l x) as N1. pose proof (N x l) as N2.
  destruct o, left; cbn [rel_c related]; unfold rnot, eq_c, lt_c, c_lt; rewrite CE; cbn [rbind rnoexc]; (eexists; split; [reflexivity|]);
    rewrite ?negb_true_iff, <- ?not_true_iff_false, ?G1, ?G2, ?G3; tauto.
Qed.
End Null.
Print Assumptions C99_written_partial.
Print Assumptions C99_plus_refuted.
Print Assumptions C99_text.
Print Assumptions C99_compare.
Print Assumptions C99_find_refuted.
Print Assumptions C99_operators_refuted.
Print Assumptions C99_contains_view_refuted.
Print Assumptions C99_starts_refuted.
Print Assumptions C99_read_text.
Print Assumptions C99_operators_text.

#[local] Existing Instance Char8.
(** Two strings, one of them shared with a third; a position behind the end. *)
Example C99_ex : forall dbg, after dbg false plenty 0 [SNew (letters 300); SCopy 0; SNew [97; 98]] (fun s ss =>
  ss = [Some (letters 300); Some (letters 300); Some [97; 98]] /\
  shown_by (run_ccall dbg false plenty 0 s (CAppend 1) (At [104; 105; 0; 7])) = Some [Some (map Some (letters 300)); Some (map Some (letters 300 ++ [104; 105])); Some (map Some [97; 98])] /\
  StrCases.ends (run_ccall dbg false plenty 0 s (CInsert 2 5) Null) = Throws LogicError /\
  StrCases.ends (run_ccall dbg false plenty 0 s (CInsert 2 5) (At [104; 105; 0; 7])) = Throws OutOfRange /\
  StrCases.ends (run_ccall dbg false plenty 0 s (CPlusM 2) Null) = Throws LogicError /\
  StrCases.ends (run_ccall dbg false plenty 0 s (CPlus 2) Null) = Undefined).
Proof. intros []; vm_compute; repeat split. Qed.
Example C99_read_ex : c_string [98; 0; 7] [98] /\
  find_c Find (list_mem [97; 98]) 2 (At [98; 0; 7]) 0 = RVal 1 /\ contains_c (list_mem [97; 98]) 2 (At [98; 0; 7]) = RVal true /\
  compare_c (list_mem [97; 98]) 2 (At [98; 0; 7]) = RVal (-1) /\ compare_at_c (list_mem [97; 98]) 2 3 1 (At [98; 0; 7]) = RThrow OutOfRange /\
  map (fun o => (rel_c false o (list_mem [97; 98]) 2 (At [98; 0; 7]), rel_c true o (list_mem [97; 98]) 2 (At [98; 0; 7]))) [Req; Rne; Rlt; Rgt; Rle; Rge] =
  [(RVal false, RVal false); (RVal true, RVal true); (RVal true, RVal false); (RVal false, RVal true); (RVal true, RVal false); (RVal false, RVal true)].
Proof. split; [split; [intros [H|[]]; discriminate H|exists [7]; reflexivity]|]. vm_compute. repeat split. Qed.
