(** Properties C38, C39, C40, C46 and the comparing part of C60: searching and
    comparing in stdb::memory::string and arena_string.

    [reads h c l] (StrStatements): in memory [h] the object [c] has the
    characters [l] and a terminator after them; by C34 and C51 every string of
    every execution does.  [npos] is the size no string has. *)
Require Import ZArith List Bool Lia.
From Verif Require Import Base StrSpec StrModel StrStatements StrCases StrFindSpec StrFindModel StrFindProofs.
Import ListNotations.
Open Scope Z_scope.

Ltac pointer_arg memory n H1 :=
  let s := fresh "s" in let E := fresh "E" in let L := fresh "L" in
  assert (L : like (list_mem memory) (stake n memory)) by (apply (like_more _ _ (sdrop n memory)); rewrite take_drop; apply like_list);
  pose proof (slen_stake n memory H1) as E; set (s := stake n memory) in *; clearbody s; subst n.

Section Search.
Context {ChT : CharType}.
Variables (h : heap) (c : core) (l : list Z).
Hypothesis R : reads h c l.
Hypothesis SZ : slen l < npos.
Lemma hay_like : like (str_mem h c) l. Proof. apply (like_more _ l [0]). apply reads_like. exact R. Qed.
Lemma hay_size : size c = slen l. Proof. apply R. Qed.

(** ** C38.  The result [r] stands for an index, [npos] for none ([found]). *)

(** C38: find(const char*, pos, n), n characters being readable there. *)
Theorem C38_find : forall memory n pos, 0 <= n <= slen memory -> n < M64 -> 0 <= pos < M64 ->
  exists r, find (str_mem h c) (list_mem memory) (size c) n pos = Ok r /\ least pos (occurs_at (stake n memory) l) (found r).
Proof.
  intros memory n pos H1 H2 H3. rewrite hay_size. pointer_arg memory n H1. apply find_correct; auto using hay_like.
Qed.
(** C38: find(str, pos), any string, also itself. *)
Theorem C38_find_string : forall d nd pos, reads h d nd -> slen nd < M64 -> 0 <= pos < M64 ->
  exists r, find (str_mem h c) (str_mem h d) (size c) (size d) pos = Ok r /\ least pos (occurs_at nd l) (found r).
Proof.
  intros d nd pos H1 H2 H3. rewrite hay_size. destruct (reads_like _ _ _ H1) as (L & ->). apply find_correct; auto using hay_like. eapply like_more; exact L.
Qed.
(** C38: find(const char*, pos), find(char, pos). *)
Theorem C38_find_cstring : forall memory nd pos, c_string memory nd -> slen nd < M64 -> 0 <= pos < M64 ->
  exists r, find_cstr (str_mem h c) (size c) memory pos = Ok r /\ least pos (occurs_at nd l) (found r).
Proof.
  intros memory nd pos H1 H2 H3. destruct (length_cstring _ _ H1) as (E & L). unfold find_cstr. rewrite E. cbn [bind]. rewrite hay_size. apply find_correct; auto using hay_like.
Qed.
Theorem C38_find_char : forall x pos, 0 <= pos < M64 ->
  exists r, find (str_mem h c) (list_mem [x]) (size c) 1 pos = Ok r /\ least pos (occurs_at [x] l) (found r).
Proof. intros x pos H. apply (C38_find [x] 1 pos); [cbn; lia|reflexivity|exact H]. Qed.
(** C38: rfind, the same overloads. *)
Theorem C38_rfind : forall memory n pos, 0 <= n <= slen memory -> 0 <= pos < M64 ->
  exists r, rfind (str_mem h c) (list_mem memory) (size c) n pos = Ok r /\ greatest pos (occurs_at (stake n memory) l) (found r).
Proof.
  intros memory n pos H1 H3. rewrite hay_size. pointer_arg memory n H1. apply rfind_correct; auto using hay_like.
Qed.
Theorem C38_rfind_string : forall d nd pos, reads h d nd -> 0 <= pos < M64 ->
  exists r, rfind (str_mem h c) (str_mem h d) (size c) (size d) pos = Ok r /\ greatest pos (occurs_at nd l) (found r).
Proof.
  intros d nd pos H1 H3. rewrite hay_size. destruct (reads_like _ _ _ H1) as (L & ->). apply rfind_correct; auto using hay_like. eapply like_more; exact L.
Qed.

(** ** C39 *)

(** C39: the four searches for characters (not) in a set of [n] characters. *)
Theorem C39_find_first_of : forall memory n pos, 0 <= n <= slen memory -> 0 <= pos < M64 ->
  exists r, find_first_of (str_mem h c) (list_mem memory) (size c) n pos = Ok r /\ least pos (in_set (stake n memory) l) (found r).
Proof.
  intros memory n pos H1 H3. rewrite hay_size. pointer_arg memory n H1. apply first_of; auto using hay_like.
Qed.
Theorem C39_find_last_of : forall memory n pos, 0 <= n <= slen memory -> 0 <= pos < M64 ->
  exists r, find_last_of (str_mem h c) (list_mem memory) (size c) n pos = Ok r /\ greatest pos (in_set (stake n memory) l) (found r).
Proof.
  intros memory n pos H1 H3. rewrite hay_size. pointer_arg memory n H1. apply last_of; auto using hay_like.
Qed.
Theorem C39_find_first_not_of : forall memory n pos, 0 <= n <= slen memory -> 0 <= pos < M64 ->
  exists r, find_first_not_of (str_mem h c) (list_mem memory) (size c) n pos = Ok r /\ least pos (not_in_set (stake n memory) l) (found r).
Proof.
  intros memory n pos H1 H3. rewrite hay_size. pointer_arg memory n H1. apply first_not_of; auto using hay_like.
Qed.
Theorem C39_find_last_not_of : forall memory n pos, 0 <= n <= slen memory -> 0 <= pos < M64 ->
  exists r, find_last_not_of (str_mem h c) (list_mem memory) (size c) n pos = Ok r /\ greatest pos (not_in_set (stake n memory) l) (found r).
Proof.
  intros memory n pos H1 H3. rewrite hay_size. pointer_arg memory n H1. apply last_not_of; auto using hay_like.
Qed.

(** ** C46 *)

(** C46: contains(C string), contains(str), contains(char). *)
Lemma contains_from r nd : least 0 (occurs_at nd l) (found r) -> (negb (r =? npos) = true <-> exists k, occurs_at nd l k).
Proof.
  unfold found. destruct (Z.eqb_spec r npos); cbn [negb least].
  - intros H. split; [discriminate|]. intros (k & O). exfalso. apply (H k); [apply occurs_iff in O; lia|exact O].
  - intros (_ & O & _). split; [intros _; exists r; exact O|reflexivity].
Qed.
Theorem C46_contains_string : forall d nd, reads h d nd -> slen nd < M64 ->
  exists b, contains_str (str_mem h c) (size c) (str_mem h d) (size d) = Ok b /\ (b = true <-> exists k, occurs_at nd l k).
Proof.
  intros d nd H1 H2. destruct (C38_find_string d nd 0 H1 H2 ltac:(reflexivity || (unfold M64; lia))) as (r & E & F).
  exists (negb (r =? npos)). unfold contains_str. rewrite E. split; [reflexivity|]. apply contains_from. exact F.
Qed.
Theorem C46_contains_cstring : forall memory nd, c_string memory nd -> slen nd < M64 ->
  exists b, contains_cstr (str_mem h c) (size c) memory = Ok b /\ (b = true <-> exists k, occurs_at nd l k).
Proof.
  intros memory nd H1 H2. destruct (C38_find_cstring memory nd 0 H1 H2 ltac:(unfold M64; lia)) as (r & E & F).
  exists (negb (r =? npos)). unfold contains_cstr. rewrite E. split; [reflexivity|]. apply contains_from. exact F.
Qed.
Theorem C46_contains_char : forall x, exists b, contains_char (str_mem h c) (size c) x = Ok b /\ (b = true <-> In x l).
Proof.
  intros x. destruct (C38_find_char x 0 ltac:(unfold M64; lia)) as (r & E & F).
  exists (negb (r =? npos)). unfold contains_char. rewrite E. split; [reflexivity|]. rewrite (contains_from r [x] F). split.
  - intros (k & a & b & -> & _). apply in_or_app. right. left. reflexivity.
  - intros I. apply in_split in I. destruct I as (a & b & ->). exists (slen a), a, b. auto.
Qed.
(** C46: contains(string_view) for views without zeros and with one after them.
    Missing: other views, see the refutations. *)
Theorem C46_contains_view_partial : forall memory n, 0 <= n < M64 -> c_string memory (stake n memory) -> n <= slen memory ->
  exists b, contains_view (str_mem h c) (size c) memory n = Ok b /\ (b = true <-> exists k, occurs_at (stake n memory) l k).
Proof. intros memory n H1 H2 H3. apply (C46_contains_cstring memory (stake n memory) H2). rewrite slen_stake; lia. Qed.

(** ** C40 *)

(** C40: compare and all operators with another string; hash. *)
Theorem C40_compare : forall d m, reads h d m ->
  exists r, compare (str_mem h c) (size c) (str_mem h d) (size d) = Ok r /\ orders l m r.
Proof.
  intros d m H. exists (lex l m). split; [|apply lex_orders]. rewrite hay_size. destruct (reads_like _ _ _ H) as (L & ->).
  apply compare_like; [apply hay_like|eapply like_more; exact L].
Qed.
Theorem C40_operators : forall d m, reads h d m ->
  let a := str_mem h c in let b := str_mem h d in let n1 := size c in let n2 := size d in
  (exists r, op_eq a n1 b n2 = Ok r /\ (r = true <-> l = m)) /\
  (exists r, op_ne a n1 b n2 = Ok r /\ (r = true <-> l <> m)) /\
  (exists r, op_lt a n1 b n2 = Ok r /\ (r = true <-> lex_lt l m)) /\
  (exists r, op_gt a n1 b n2 = Ok r /\ (r = true <-> lex_lt m l)) /\
  (exists r, op_le a n1 b n2 = Ok r /\ (r = true <-> lex_lt l m \/ l = m)) /\
  (exists r, op_ge a n1 b n2 = Ok r /\ (r = true <-> lex_lt m l \/ l = m)) /\
  (exists r, op_ship a n1 b n2 = Ok r /\ match r with Lt => lex_lt l m | Eq => l = m | Gt => lex_lt m l end).
Proof.
  intros d m H a b n1 n2. destruct (reads_like _ _ _ H) as (L & S). apply like_more in L. pose proof hay_like as A.
  assert (E1 : compare a n1 b n2 = Ok (lex l m)) by (unfold a, b, n1, n2; rewrite hay_size, S; apply compare_like; assumption).
  assert (E2 : compare b n2 a n1 = Ok (lex m l)) by (unfold a, b, n1, n2; rewrite hay_size, S; apply compare_like; assumption).
  destruct (lex_orders l m) as (O1 & O2 & O3). destruct (lex_orders m l) as (P1 & P2 & P3).
  assert (EQ : exists r, op_eq a n1 b n2 = Ok r /\ (r = true <-> l = m)).
  { unfold op_eq. rewrite E1. cbn [bind]. destruct (Z.eqb_spec n1 n2) as [|NE].
    - eexists. split; [reflexivity|]. rewrite Z.eqb_eq. exact O2.
    - exists false. split; [reflexivity|]. split; [discriminate|]. intros X. exfalso. apply NE. unfold n1, n2. rewrite hay_size, S, X. reflexivity. }
  split; [exact EQ|]. split.
  - destruct EQ as (r & E & X). unfold op_ne. rewrite E. eexists. split; [reflexivity|]. destruct r; cbn; split; try discriminate.
    + intros N. exfalso. apply N, X. reflexivity.
    + intros _ N. apply X in N. discriminate.
    + reflexivity.
  - assert (G1 : (lex l m <? 0) = true <-> lex_lt l m) by (rewrite Z.ltb_lt; exact O1).
    assert (G2 : (lex m l <? 0) = true <-> lex_lt m l) by (rewrite Z.ltb_lt; exact P1).
    unfold op_gt, op_le, op_ge, op_lt, op_ship. rewrite E1, E2. cbn [bind]. pose proof (lex_lt_total l m) as T.
    assert (N : forall x y, lex_lt x y -> (lex_lt y x \/ x = y) -> False).
    { intros x y X [Y| ->]; [exact (lex_lt_irrefl _ (lex_lt_trans _ _ _ X Y))|exact (lex_lt_irrefl _ X)]. }
    split; [eexists; split; [reflexivity|exact G1]|]. split; [eexists; split; [reflexivity|exact G2]|]. split; [|split].
    + eexists. split; [reflexivity|]. rewrite negb_true_iff, <- not_true_iff_false, G2. split; [tauto|]. intros X Y. apply (N m l Y). destruct X; auto.
    + eexists. split; [reflexivity|]. rewrite negb_true_iff, <- not_true_iff_false, G1. split; [tauto|]. intros X Y. apply (N l m Y). destruct X; auto.
    + eexists. split; [reflexivity|]. destruct (Z.ltb_spec (lex l m) 0); [apply O1; assumption|]. destruct (Z.ltb_spec 0 (lex l m)); [apply O3; assumption|apply O2; lia].
Qed.
(** C40: and with a const char*, on either side. *)
Theorem C40_operators_cstring : forall memory m, c_string memory m ->
  let a := str_mem h c in let n1 := size c in
  (exists r, compare_cstr a n1 memory = Ok r /\ orders l m r) /\
  (exists r, cop_eq a n1 memory = Ok r /\ (r = true <-> l = m)) /\
  (exists r, cop_ne a n1 memory = Ok r /\ (r = true <-> l <> m)) /\
  (exists r, cop_lt a n1 memory = Ok r /\ (r = true <-> lex_lt l m)) /\
  (exists r, cop_gt a n1 memory = Ok r /\ (r = true <-> lex_lt m l)) /\
  (exists r, cop_le a n1 memory = Ok r /\ (r = true <-> lex_lt l m \/ l = m)) /\
  (exists r, cop_ge a n1 memory = Ok r /\ (r = true <-> lex_lt m l \/ l = m)) /\
  (exists r, lop_lt memory a n1 = Ok r /\ (r = true <-> lex_lt m l)).
Proof.
  intros memory m H a n1. assert (E : compare_cstr a n1 memory = Ok (lex l m)) by (unfold a, n1; rewrite hay_size; apply compare_cstr_like; [apply hay_like|exact H]).
  pose proof (lex_orders l m) as O. destruct O as (O1 & O2 & O3). pose proof (lex_lt_total l m) as T.
  assert (N : forall x y, lex_lt x y -> (lex_lt y x \/ x = y) -> False).
  { intros x y X [Y| ->]; [exact (lex_lt_irrefl _ (lex_lt_trans _ _ _ X Y))|exact (lex_lt_irrefl _ X)]. }
  assert (G1 : (lex l m <? 0) = true <-> lex_lt l m) by (rewrite Z.ltb_lt; exact O1).
  assert (G2 : (0 <? lex l m) = true <-> lex_lt m l) by (rewrite Z.ltb_lt; exact O3).
  assert (G3 : (lex l m =? 0) = true <-> l = m) by (rewrite Z.eqb_eq; exact O2).
  unfold cop_ne, cop_eq, cop_gt, cop_le, cop_ge, cop_lt, lop_lt. rewrite E. cbn [bind].
  repeat match goal with |- _ /\ _ => split end; (eexists; split; [reflexivity|]); try assumption.
  - split; [exact O1|]. split; assumption.
  - rewrite negb_true_iff, <- not_true_iff_false, G3. reflexivity.
  - rewrite negb_true_iff, <- not_true_iff_false, G2. split; [tauto|]. intros X Y. apply (N m l Y). destruct X; auto.
  - rewrite negb_true_iff, <- not_true_iff_false, G1. split; [tauto|]. intros X Y. apply (N l m Y). destruct X; auto.
Qed.
(** C60: compare with positions. *)
Theorem C60_compare : forall memory n2 pos n1, 0 <= n2 <= slen memory -> 0 <= pos < M64 -> 0 <= n1 < M64 ->
  match compare_at (str_mem h c) (size c) pos n1 (list_mem memory) n2 with
  | Ok (Some r) => pos <= slen l /\ orders (piece pos n1 l) (stake n2 memory) r
  | Ok None => slen l < pos
  | _ => False
  end.
Proof.
  intros memory n2 pos n1 H1 H2 H3. rewrite hay_size. pointer_arg memory n2 H1.
  rewrite (compare_at_like _ _ l s); [|apply hay_like|exact L|lia|lia].
  destruct (Z.leb_spec pos (slen l)); [split; [assumption|apply lex_orders]|assumption].
Qed.
Theorem C60_compare_strings : forall d m pos n1 pos2 n2, reads h d m -> 0 <= pos < M64 -> 0 <= n1 < M64 -> 0 <= pos2 < M64 -> 0 <= n2 < M64 ->
  match compare_at2 (str_mem h c) (size c) pos n1 (str_mem h d) (size d) pos2 n2 with
  | Ok (Some r) => pos <= slen l /\ pos2 <= slen m /\ orders (piece pos n1 l) (piece pos2 n2 m) r
  | Ok None => slen l < pos \/ slen m < pos2
  | _ => False
  end.
Proof.
  intros d m pos n1 pos2 n2 H H1 H2 H3 H4. destruct (reads_like _ _ _ H) as (L & ->). apply like_more in L. unfold compare_at2.
  destruct (Z.ltb_spec (slen m) pos2) as [|Ge]; [right; assumption|].
  assert (LP : slen (piece pos2 n2 m) = Z.min n2 (slen m - pos2)).
  { unfold piece. destruct (Z.le_gt_cases n2 (slen m - pos2)).
    - rewrite slen_stake by (rewrite slen_sdrop; lia). lia.
    - rewrite stake_all by (rewrite slen_sdrop; lia). rewrite slen_sdrop by lia. lia. }
  rewrite <- LP. rewrite hay_size. rewrite (compare_at_like _ _ l (piece pos2 n2 m)); [|apply hay_like| |lia|lia].
  - destruct (Z.leb_spec pos (slen l)); [split; [assumption|split; [assumption|apply lex_orders]]|left; assumption].
  - apply (like_more _ _ (sdrop n2 (sdrop pos2 m))). unfold piece. rewrite take_drop. apply like_shift; [exact L|lia].
Qed.
End Search.
#[local] Existing Instance Char8.
(** C40: equal strings have equal hashes, whatever the hash function does; the
    hash is that of all characters, seeded with their number.  (char; for wider characters see C84.) *)
Theorem C40_hash : forall xxh h c l d, reads h c l -> slen l < npos -> reads h d l -> exists x, x = xxh l (slen l) /\
  hash xxh (str_mem h c) (size c) = Ok x /\ hash xxh (str_mem h d) (size d) = Ok x.
Proof.
  intros xxh h c l d RC SZ H. pose proof (hay_like h c l RC) as HL. destruct (reads_like _ _ _ H) as (L & ->). apply like_more in L. rewrite (hay_size h c l RC). unfold hash. pose proof (slen0 l).
  rewrite (loads_like _ l HL) by lia. rewrite (loads_like _ l L) by lia. cbn [bind]. change (sdrop 0 l) with l. rewrite stake_all by lia. eauto.
Qed.

(** C40: the order is a strict total order. *)
Theorem C40_total_order : (forall a, ~ lex_lt a a) /\ (forall a b c, lex_lt a b -> lex_lt b c -> lex_lt a c) /\ (forall a b, lex_lt a b \/ a = b \/ lex_lt b a).
Proof. exact (conj lex_lt_irrefl (conj lex_lt_trans lex_lt_total)). Qed.
Print Assumptions C38_find.
Print Assumptions C38_find_string.
Print Assumptions C38_find_cstring.
Print Assumptions C38_find_char.
Print Assumptions C38_rfind.
Print Assumptions C38_rfind_string.
Print Assumptions C39_find_first_of.
Print Assumptions C39_find_last_of.
Print Assumptions C39_find_first_not_of.
Print Assumptions C39_find_last_not_of.
Print Assumptions C46_contains_string.
Print Assumptions C46_contains_cstring.
Print Assumptions C46_contains_char.
Print Assumptions C46_contains_view_partial.
Print Assumptions C40_compare.
Print Assumptions C40_operators.
Print Assumptions C40_operators_cstring.
Print Assumptions C40_hash.
Print Assumptions C60_compare.
Print Assumptions C60_compare_strings.
Print Assumptions C40_total_order.

(** ** Examples: on a large string sharing its buffer, and small ones *)
Definition with_strings {A} (f : heap -> core -> core -> A) : option A :=
  match run false false plenty 0 [SNew (letters 300); SCopy 0; SNew [99; 100]] s_init [] with
  | Some ({| s_heap := h; s_objs := [Some _; Some c; Some d] |}, _) => Some (f h c d)
  | _ => None
  end.
Example C38_npos : npos = 2 ^ 64 - 1. Proof. reflexivity. Qed.
Example C38_ex : with_strings (fun h c d => (find (str_mem h c) (str_mem h d) (size c) (size d) 3, rfind (str_mem h c) (str_mem h d) (size c) (size d) npos,
  find (str_mem h c) (list_mem [99; 100; 99]) (size c) 3 0, find (str_mem h c) (str_mem h c) (size c) (size c) 0, find_cstr (str_mem h c) (size c) [99; 100; 0; 7] 299))
  = Some (Ok 28, Ok 288, Ok npos, Ok 0, Ok npos).
Proof. vm_compute. reflexivity. Qed.
Example C38_occurs_ex : least 3 (occurs_at [99; 100] (letters 60)) (Some 28).
Proof.
  split; [lia|]. split; [apply occurs_iff; split; [lia|]; split; [vm_compute; discriminate|]|].
  - intros j Hj. change (slen [99; 100]) with 2 in Hj. assert (j = 0 \/ j = 1) as [-> | ->] by lia; reflexivity.
  - intros j Hj O. apply occurs_iff in O. destruct O as (_ & _ & O). specialize (O 0 ltac:(cbn; lia)). destruct (Z.le_gt_cases 28 j); [assumption|].
    exfalso. rewrite Z.add_0_r in O. assert (X : forallb (fun k => negb (g (letters 60) (3 + Z.of_nat k) =? 99)) (seq 0 25) = true) by (vm_compute; reflexivity).
    rewrite forallb_forall in X. specialize (X (Z.to_nat (j - 3))). rewrite in_seq in X. specialize (X ltac:(lia)). rewrite negb_true_iff, Z.eqb_neq in X. apply X.
    change (g [99; 100] 0) with 99 in O. rewrite <- O. f_equal. lia.
Qed.
Example C39_ex : with_strings (fun h c d => (find_first_of (str_mem h c) (str_mem h d) (size c) (size d) 4, find_last_of (str_mem h c) (str_mem h d) (size c) (size d) npos,
  find_first_not_of (str_mem h c) (list_mem (letters 26)) (size c) 25 0, find_last_not_of (str_mem h d) (list_mem [100]) (size d) 1 npos))
  = Some (Ok 28, Ok 289, Ok 25, Ok 0).
Proof. vm_compute. reflexivity. Qed.
Example C40_ex : with_strings (fun h c d => (op_lt (str_mem h c) (size c) (str_mem h d) (size d), op_eq (str_mem h c) (size c) (str_mem h c) (size c),
  compare_cstr (str_mem h d) (size d) [99; 100; 200; 0], cop_eq (str_mem h d) (size d) [99; 100; 0])) = Some (Ok true, Ok true, Ok (-1), Ok true).
Proof. vm_compute. reflexivity. Qed.
Example C60_compare_ex : with_strings (fun h c d => (compare_at (str_mem h c) (size c) 301 1 (list_mem [1]) 1, compare_at (str_mem h c) (size c) 300 1 (list_mem [1]) 1)) = Some (Ok None, Ok (Some (-1))).
Proof. vm_compute. reflexivity. Qed.
(** C46 is false of contains(string_view): a view of the first two characters of
    "cd!" is not found although they occur, one with a zero inside is found
    although it does not occur, and one without a zero after it is read beyond its end. *)
Theorem C46_contains_view_refuted :
  with_strings (fun h c d => contains_view (str_mem h c) (size c) [99; 100; 33; 0] 2) = Some (Ok false) /\ occurs_at [99; 100] (letters 300) 2 /\
  with_strings (fun h c d => contains_view (str_mem h c) (size c) [99; 0; 33; 0] 3) = Some (Ok true) /\ (forall k, ~ occurs_at [99; 0; 33] (letters 300) k) /\
  with_strings (fun h c d => contains_view (str_mem h c) (size c) [99; 100] 2) = Some Undef.
Proof.
  split; [vm_compute; reflexivity|]. split; [|split; [vm_compute; reflexivity|split; [|vm_compute; reflexivity]]].
  - exists [97; 98], (sdrop 4 (letters 300)). split; [vm_compute; reflexivity|reflexivity].
  - intros k (a & b & E & _). assert (X : forallb (fun x => negb (x =? 0)) (letters 300) = true) by (vm_compute; reflexivity). rewrite forallb_forall in X.
    specialize (X 0). rewrite E in X. assert (I : In 0 (a ++ [99; 0; 33] ++ b)) by (apply in_or_app; right; right; left; reflexivity). specialize (X I). discriminate.
Qed.
Print Assumptions C46_contains_view_refuted.
