(** Running concrete programs on strings, for the examples. *)
Require Import ZArith List Bool Lia.
From Verif Require Import Base StrSpec StrModel StrStatements StrProofs8 StrProofs9.
Import ListNotations.
Open Scope Z_scope.

Ltac bool_prop :=
  repeat match goal with
  | H : _ && _ = true |- _ => apply andb_prop in H; destruct H
  | H : (_ <=? _) = true |- _ => apply Z.leb_le in H
  | H : (_ <? _) = true |- _ => apply Z.ltb_lt in H
  | H : negb _ = true |- _ => apply negb_true_iff in H
  | H : Nat.eqb _ _ = false |- _ => apply Nat.eqb_neq in H
  end.
Section Wide.
Context {ChT : CharType}.

(** A malloc that serves up to 2^40 bytes; one that refuses its [k]-th request; one that refuses more than [m] bytes. *)
Definition plenty (_ : nat) (n : Z) : bool := n <? 1099511627776.
Definition except (j : nat) (k : nat) (n : Z) : bool := negb (Nat.eqb k j) && (n <? 1099511627776).
Definition upto (m : Z) (_ : nat) (n : Z) : bool := (n <=? m) && (n <? 1099511627776).
Lemma big_ok n : (n <? 1099511627776) = true -> n <= 2 ^ 62.
Proof. intros H. apply Z.ltb_lt in H. eapply Z.lt_le_incl, Z.lt_le_trans; [exact H|]. vm_compute. discriminate. Qed.
Lemma plenty_sane : mal_sane plenty. Proof. intros k n. apply big_ok. Qed.
Lemma except_sane j : mal_sane (except j).
Proof. intros k n H. apply andb_prop in H. apply big_ok, H. Qed.
Lemma upto_sane m : mal_sane (upto m).
Proof. intros k n H. apply andb_prop in H. apply big_ok, H. Qed.

(** Deciding whether a call is permitted. *)
Definition byte_b (c : Z) : bool := (0 <=? c) && (c <? 256 ^ csize).
Definition count_b (n : Z) : bool := (0 <=? n) && (n <? limit).
Definition size_b (n : Z) : bool := (0 <=? n) && (n <? M64).
Definition chars_b (l : list Z) : bool := forallb byte_b l && (slen l <? limit).
Definition arg_b (a : arg) : bool := match a with Chars l => chars_b l | Piece _ _ _ => true end.
Definition foreign_b (i : nat) (a : arg) : bool := match a with Chars _ => true | Piece j _ _ => negb (Nat.eqb j i) end.
Definition full (l : list Z) : bool := match l with [] => false | _ => true end.
Definition uop_b (ar : Z) (i : nat) (l : list Z) (o : uop) : bool :=
  match o with
  | UAppend a | UAssign a => arg_b a
  | UAppendN n c | UAssignN n c | UResize n c => count_b n && byte_b c
  | UPush c => byte_b c
  | UPop => full l
  | UAssignChar c => byte_b c && (ar =? 0)
  | UInsert p a => size_b p && (arg_b a && foreign_b i a)
  | UInsertN p n c => size_b p && (count_b n && byte_b c)
  | UErase p n => size_b p && size_b n
  | UReplace p n a => size_b p && (size_b n && (arg_b a && ((ar =? 0) || foreign_b i a)))
  | UReplaceN p n n2 c => size_b p && (size_b n && (count_b n2 && byte_b c))
  | UInsertInput p x => ((0 <=? p) && (p <=? slen l)) && chars_b x
  | UReplaceInput p n x => (0 <=? p) && ((0 <=? n) && ((p + n <=? slen l) && chars_b x))
  | UReserve n => (0 <=? n) && (n <? 2 * limit)
  | UShrink | UClear => true
  | USet k c => ((0 <=? k) && (k <? slen l)) && byte_b c
  | UAtSet k c => size_b k && byte_b c
  | UBackSet c => full l && byte_b c
  end.
Definition sop_b (ar : Z) (ss : list (option (list Z))) (o : sop) : bool :=
  match o with
  | SNew l | SPlusCL l _ | SPlusCLM l _ | SPlusCR _ l | SPlusCRM _ l => chars_b l
  | SNewN n c => count_b n && byte_b c
  | SPlusHL c _ | SPlusHLM c _ | SPlusHR _ c | SPlusHRM _ c => byte_b c
  | SSub _ p n | SSubstr _ p n | SSubstrMove _ p n => size_b p && size_b n
  | SOn i o => match sget ss i with Some l => uop_b ar i l o | None => true end
  | _ => true
  end.

Lemma byte_b_ok c : byte_b c = true -> is_char c. Proof. unfold byte_b, is_char. intros H. bool_prop. lia. Qed.
Lemma count_b_ok n : count_b n = true -> count n.
Proof. unfold count_b, count. intros H. bool_prop. lia. Qed.
Lemma size_b_ok n : size_b n = true -> size_t n. Proof. unfold size_b, size_t. intros H. bool_prop. lia. Qed.
Lemma chars_b_ok l : chars_b l = true -> chars l.
Proof.
  unfold chars_b, chars. intros H. bool_prop. split; [|assumption].
  apply Forall_forall. intros x Hx. apply byte_b_ok. rewrite forallb_forall in H. auto.
Qed.
Lemma arg_b_ok a : arg_b a = true -> arg_ok a. Proof. destruct a; cbn; auto using chars_b_ok. Qed.
Lemma foreign_b_ok i a : foreign_b i a = true -> foreign i a. Proof. destruct a; cbn; auto. intros H. bool_prop. exact H. Qed.
Lemma full_ok l : full l = true -> l <> []. Proof. destruct l; discriminate. Qed.
Lemma uop_b_ok ar i l o : uop_b ar i l o = true -> uop_ok ar i l o.
Proof.
  intros H. destruct o; cbn [uop_b uop_ok] in *; bool_prop;
    repeat match goal with |- _ /\ _ => split end; auto using byte_b_ok, count_b_ok, size_b_ok, arg_b_ok, foreign_b_ok, full_ok; try (apply chars_b_ok; assumption); try (apply Z.eqb_eq; assumption).
  intros N. apply Z.eqb_neq in N. match goal with H : _ || _ = true |- _ => rewrite N in H; cbn [orb] in H; apply foreign_b_ok; exact H end.
Qed.
Lemma sop_b_ok ar ss o : sop_b ar ss o = true -> sop_ok ar ss o.
Proof.
  intros H. destruct o; cbn [sop_b sop_ok] in *; bool_prop; try exact I; repeat match goal with |- _ /\ _ => split end; auto using byte_b_ok, count_b_ok, size_b_ok, chars_b_ok.
  intros l E. rewrite E in H. apply uop_b_ok. exact H.
Qed.

Section Run.
Variables (dbg arena : bool) (mal : nat -> Z -> bool) (ar : Z).

(** Runs a program of permitted calls; an exception does not end it. *)
Definition after_step (o : sop) (s : sys) (ss : list (option (list Z))) : option (sys * list (option (list Z))) :=
  if sop_b ar ss o then
    match step dbg arena mal ar s o, s_apply o ss with
    | SRet s', [SVal ss'] => if h_rfail (s_heap s') then None else Some (s', ss')
    | SThr OutOfRange s', [SRange ss'] => if h_rfail (s_heap s') then None else Some (s', ss')
    | _, _ => None
    end
  else None.
Fixpoint run (ops : list sop) (s : sys) (ss : list (option (list Z))) : option (sys * list (option (list Z))) :=
  match ops with
  | [] => Some (s, ss)
  | o :: r => match after_step o s ss with Some (s', ss') => run r s' ss' | None => None end
  end.
Lemma after_step_ok n o s ss s' ss' : mal_sane mal -> ar_ok dbg arena ar -> reach dbg arena mal ar n s -> sees s ss -> short n ->
  after_step o s ss = Some (s', ss') -> reach dbg arena mal ar (S n) s' /\ sees s' ss'.
Proof.
  intros MS AO H SE SH E. unfold after_step in E. destruct (sop_b ar ss o) eqn:B; [|discriminate]. apply sop_b_ok in B.
  assert (AL : s_apply o ss <> [] -> allowed ar ss o) by (intros X; split; assumption).
  destruct (step dbg arena mal ar s o) as [s1|e s1|h1| |h1] eqn:ST; try discriminate.
  - destruct (s_apply o ss) as [|[ss1|ss1] [|]] eqn:AP; try discriminate. destruct (h_rfail (s_heap s1)) eqn:RF; [discriminate|]. injection E as <- <-.
    assert (AL' : allowed ar ss o) by (apply AL; discriminate). pose proof (reach_step dbg arena mal ar n s ss o MS AO H SH SE AL') as Y. rewrite ST in Y. cbn [step_ok] in Y. rewrite AP in Y.
    split; [eapply reach_next; eauto|]. destruct Y as (ss' & [E|[]] & X). injection E as <-. exact X.
  - destruct e; try discriminate. destruct (s_apply o ss) as [|[ss1|ss1] [|]] eqn:AP; try discriminate. destruct (h_rfail (s_heap s1)) eqn:RF; [discriminate|]. injection E as <- <-.
    assert (AL' : allowed ar ss o) by (apply AL; discriminate). pose proof (reach_step dbg arena mal ar n s ss o MS AO H SH SE AL') as Y. rewrite ST in Y. cbn [step_ok] in Y. rewrite AP in Y.
    split; [eapply reach_next; eauto|]. destruct Y as ((ss' & [E|[]] & X) & _). injection E as <-. exact X.
Qed.
Lemma run_ok : mal_sane mal -> ar_ok dbg arena ar -> forall ops n s ss s' ss', reach dbg arena mal ar n s -> sees s ss -> Z.of_nat n + slen ops < 2 ^ 63 - 2 ->
  run ops s ss = Some (s', ss') -> reach dbg arena mal ar (n + length ops) s' /\ sees s' ss'.
Proof.
  intros MS AO. induction ops as [|o r IH]; intros n s ss s' ss' H SE L E; cbn [run length] in *.
  - injection E as <- <-. rewrite Nat.add_0_r. auto.
  - assert (LL : slen (o :: r) = 1 + slen r) by (unfold slen; cbn [length]; lia). rewrite LL in L. assert (0 <= slen r) by (unfold slen; lia).
    destruct (after_step o s ss) as [[s1 ss1]|] eqn:E1; [|discriminate]. destruct (after_step_ok n o s ss s1 ss1 MS AO H SE) as (H1 & SE1); [unfold short; lia|exact E1|].
    replace (n + S (length r))%nat with (S n + length r)%nat by lia. eapply IH; [exact H1|exact SE1|lia|exact E].
Qed.
(** [P] holds after the program, and the program is a permitted one. *)
Definition after (ops : list sop) (P : sys -> list (option (list Z)) -> Prop) : Prop :=
  match run ops s_init [] with Some (s, ss) => P s ss | None => False end.
Lemma after_reach ops P : mal_sane mal -> ar_ok dbg arena ar -> slen ops < 2 ^ 40 -> after ops P ->
  exists n s ss, reach dbg arena mal ar n s /\ short n /\ sees s ss /\ P s ss.
Proof.
  intros MS AO L H. unfold after in H. destruct (run ops s_init []) as [[s ss]|] eqn:E; [|contradiction].
  assert (SI : sees s_init []) by (split; [reflexivity|intros [|i]; exact I]).
  destruct (run_ok MS AO ops O s_init [] s ss (reach_init _ _ _ _) SI) as (R & SE); [cbn; lia|exact E|].
  exists (0 + length ops)%nat, s, ss. split; [exact R|]. split; [unfold short, slen in *; cbn [Nat.add]; lia|]. auto.
Qed.
End Run.

(** What the strings read as; the blocks that exist. *)
Definition shown (s : sys) : list (option (list (option Z))) :=
  map (fun x => match x with Some c => value (s_heap s) c | None => None end) (s_objs s).
Definition shown_by (r : sout) : option (list (option (list (option Z)))) :=
  match r with SRet s | SThr _ s => Some (shown s) | _ => None end.
Definition live_blocks (h : heap) : Z := slen (filter bk_live (h_blocks h)).
(** How a call ends. *)
Inductive ending := Returns | Throws (e : exn) | Terminates | Asserts | Undefined.
Definition ends (r : sout) : ending :=
  match r with SRet _ => Returns | SThr e _ => Throws e | STerm _ => Terminates | SAFail => Asserts | SUB _ => Undefined end.
(** [n] copies of a character that increases by one. *)
Definition letters (n : Z) : list Z := map (fun k => 97 + Z.of_nat k mod 26) (seq 0 (Z.to_nat n)).
End Wide.
