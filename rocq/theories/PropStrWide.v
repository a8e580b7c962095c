(** Property C84: strings of characters wider than a byte.

    The theorems of PropString.v, PropStringOwn.v, PropStrGrow.v, PropStrFind.v
    and PropStrApi.v with [ChT : CharType] hold for characters of one, two and
    four bytes.  Here: what depends on the width, the main statements once more for
    two and four bytes, and examples.  See PropString.v for [reach], [sees], [step]. *)
Require Import ZArith List Bool Lia.
From Verif Require Import Base StrSpec StrModel StrStatements StrCases StrProofs12 StrProofs13 StrFindSpec StrFindModel StrFindProofs StrWideModel StrWideProofs PropString PropStrFind.
Import ListNotations.
Open Scope Z_scope.

(** C84: the representation a string of [n] characters is constructed in: inline
    up to 11 or 5 characters in release builds, its own buffer up to 127 or 63, shared above. *)
Definition kind16 (dbg : bool) (n : Z) : Z := if negb dbg && (n <=? 11) then is_small else if n <=? 127 then is_medium else is_large.
Definition kind32 (dbg : bool) (n : Z) : Z := if negb dbg && (n <=? 5) then is_small else if n <=? 63 then is_medium else is_large.
Theorem C84_kind16 : forall dbg mal s l s', slen l < 2 ^ 61 -> step (ChT := Char16) dbg false mal 0 s (SNew l) = SRet s' ->
  exists c, s_objs s' = s_objs s ++ [Some c] /\ category c = kind16 dbg (slen l).
Proof. intros dbg mal s l s' L E. destruct (C33_kind_by_size (ChT := Char16) dbg mal s l s' L E) as (c & O & K). exists c. split; [exact O|]. rewrite K. destruct dbg; reflexivity. Qed.
Theorem C84_kind32 : forall dbg mal s l s', slen l < 2 ^ 60 -> step (ChT := Char32) dbg false mal 0 s (SNew l) = SRet s' ->
  exists c, s_objs s' = s_objs s ++ [Some c] /\ category c = kind32 dbg (slen l).
Proof. intros dbg mal s l s' L E. destruct (C33_kind_by_size (ChT := Char32) dbg mal s l s' L E) as (c & O & K). exists c. split; [exact O|]. rewrite K. destruct dbg; reflexivity. Qed.
Print Assumptions C84_kind16.
Print Assumptions C84_kind32.

(** C84: in every execution with strings of two- or four-byte characters, every
    permitted call does to the strings what it does to independent sequences of characters.
    Missing: what is missing in C34. *)
Theorem C84_value_semantics_partial : forall ChT, ChT = Char16 \/ ChT = Char32 -> forall dbg mal, mal_sane mal ->
  forall n s ss o, reach dbg false mal 0 n s -> short n -> sees s ss -> allowed 0 ss o ->
  step_ok o s ss (step dbg false mal 0 s o).
Proof. intros ChT _ dbg mal MS. exact (C34_value_semantics_partial dbg mal MS). Qed.
Print Assumptions C84_value_semantics_partial.
(** C84: reference counts are the numbers of strings that hold a buffer; every
    string is terminated within its capacity; nothing is left when all are destroyed. *)
Theorem C84_buffers : forall ChT, ChT = Char16 \/ ChT = Char32 -> forall dbg mal, mal_sane mal ->
  forall n s, reach dbg false mal 0 n s -> short n ->
  (forall b k, blk (s_heap s) b = Some k -> bk_live k = true -> match bk_kind k with Plain => holders s b = 1 | Counted r => holders s b = r end) /\
  (forall i c, sget (s_objs s) i = Some c ->
     exists cap, capacity (s_heap s) c = Ret cap (s_heap s) c /\ size c <= cap /\ room (s_heap s) c (cap + 1) /\ after_last (s_heap s) c = Some 0) /\
  ((forall i, sget (s_objs s) i = None) -> forall b k, blk (s_heap s) b = Some k -> bk_live k = false).
Proof.
  intros ChT _ dbg mal MS n s H SH. split; [|split].
  - intros b k B L. exact (C35_counts_exact dbg mal MS n s b k H SH B L).
  - intros i c E. exact (C36_terminated_within_capacity dbg mal MS n s i c H SH E).
  - intros A b k B. exact (C35_no_leak dbg mal MS n s b k H SH A B).
Qed.
Print Assumptions C84_buffers.

(** C84: podFill writes [c] to the characters from [b] to [e] and to nothing
    else, whatever their number; its loops end within [e - b] rounds. *)
Theorem C84_fill : forall fuel m b e c, 0 <= e - b < M64 -> e - b <= Z.of_nat fuel ->
  exists m', pod_fill fuel m b e c = Some m' /\ forall i, m' i = if (b <=? i) && (i <? e) then Some c else m i.
Proof. exact pod_fill_ok. Qed.
Print Assumptions C84_fill.
Example C84_fill_ex :
  match pod_fill 30 (fun _ => None) 3 24 955 with
  | Some m => map m [2; 3; 4; 10; 11; 18; 19; 20; 23; 24] = [None; Some 955; Some 955; Some 955; Some 955; Some 955; Some 955; Some 955; Some 955; None]
  | None => False
  end.
Proof. reflexivity. Qed.

(** C84: equal wide strings have equal hashes, whatever the hash function does.
    Missing: that the hash covers all characters, see the refutation. *)
Theorem C84_hash_partial : forall (ChT : CharType) xxh h c l d, reads h c l -> slen l < npos -> reads h d l ->
  exists x, hash_wide xxh (str_mem h c) (size c) = Ok x /\ hash_wide xxh (str_mem h d) (size d) = Ok x.
Proof.
  intros ChT xxh h c l d RC SZ RD. rewrite (hay_size h c l RC), (hay_size h d l RD). unfold hash_wide. pose proof (slen0 l).
  rewrite (loads_like _ l (hay_like h c l RC)) by lia. rewrite (loads_like _ l (hay_like h d l RD)) by lia. cbn [bind]. eauto.
Qed.
Print Assumptions C84_hash_partial.
(** The number whose bytes, lowest first, are [l]. *)
Fixpoint number_of (l : list Z) : Z := match l with [] => 0 | b :: r => b + 256 * number_of r end.
(** C84: what the hash is computed from: of the characters, each written as its
    bytes, the first size() bytes. *)
Theorem C84_hash_bytes : forall (ChT : CharType) xxh h c l, reads h c l -> slen l < npos -> Forall is_char l ->
  exists chars, Forall2 (fun bs x => Z.of_nat (length bs) = csize /\ Forall (fun b => 0 <= b < 256) bs /\ number_of bs = x) chars l /\
    hash_wide xxh (str_mem h c) (size c) = Ok (xxh (firstn (length l) (concat chars)) (slen l * csize)).
Proof.
  intros ChT xxh h c l RC SZ HL. exists (map bytes_of l). split.
  - clear - HL. induction HL as [|x r Hx _ IH]; simpl; constructor; auto.
    assert (C : 0 <= csize) by (destruct ChT; simpl; lia).
    unfold bytes_of. rewrite map_length, seq_length. split; [lia|]. split.
    + apply Forall_forall. intros b Hb. apply in_map_iff in Hb. destruct Hb as (k & <- & _). apply Z.mod_pos_bound. lia.
    + unfold is_char in Hx. revert Hx. rewrite <- (Z2Nat.id csize C), Nat2Z.id. generalize (Z.to_nat csize). clear. intros n.
      revert x. induction n as [|n IH]; intros x Hx; [simpl in Hx |- *; lia|].
      cbn [seq map number_of]. rewrite <- seq_shift, map_map. rewrite Nat2Z.inj_succ, Z.pow_succ_r in Hx by lia.
      rewrite (map_ext _ (fun i => x / 256 / 256 ^ Z.of_nat i mod 256)).
      2:{ intros k. rewrite Nat2Z.inj_succ, Z.pow_succ_r by lia. now rewrite Z.div_div by lia. }
      rewrite IH; [|split; [apply Z.div_pos; lia|apply Z.div_lt_upper_bound; lia]].
      replace (256 ^ Z.of_nat 0) with 1 by reflexivity. rewrite Z.div_1_r. pose proof (Z.div_mod x 256). lia.
  - rewrite (hay_size h c l RC). unfold hash_wide. pose proof (slen0 l).
    rewrite (loads_like _ l (hay_like h c l RC)) by lia. cbn [bind]. rewrite flat_map_concat_map.
    unfold slen, stake, sdrop. rewrite !Nat2Z.id. cbn [Z.to_nat skipn]. now rewrite firstn_all.
Qed.
Print Assumptions C84_hash_bytes.
(** C84 is false of the hash: strings that differ only in their second half
    have the same one with every hash function. *)
Theorem C84_hash_refuted : forall ChT, ChT = Char16 \/ ChT = Char32 -> forall dbg,
  after dbg false plenty 0 [SNew [8364; 65; 66; 67]; SNew [8364; 65; 66; 68]] (fun s ss =>
    ss = [Some [8364; 65; 66; 67]; Some [8364; 65; 66; 68]] /\
    match s_objs s with
    | [Some c; Some d] => forall xxh, exists x, hash_wide xxh (str_mem (s_heap s) c) (size c) = Ok x /\ hash_wide xxh (str_mem (s_heap s) d) (size d) = Ok x
    | _ => False
    end).
Proof. intros ChT [-> | ->] [|]; vm_compute; (split; [reflexivity|intros xxh; eexists; split; reflexivity]). Qed.
Print Assumptions C84_hash_refuted.

(** ** Examples *)
(** 300 characters beyond the range of a byte, sharing a buffer, unsharing, growing, moving, destroying. *)
Definition wides (n : Z) : list Z := map (fun k => 65000 + Z.of_nat k mod 500) (seq 0 (Z.to_nat n)).
Definition wide_prog : list sop :=
  [SNew (wides 300); SCopy 0; SOn 1 (UPush 8364); SNew (wides 5); SOn 2 (UAppend (Piece 0 0 40)); SMove 2; SSwap 0 3; SOn 0 (UErase 2 7); SOn 1 (UReplaceN 2 23 1 7); SDestroy 1].
Definition shows {ChT : CharType} (s : sys) (ss : list (option (list Z))) : Prop := shown s = map (option_map (map (@Some Z))) ss.
Example C84_prog16_ex : forall dbg, after (ChT := Char16) dbg false plenty 0 wide_prog (fun s ss => shows (ChT := Char16) s ss /\ map (option_map slen) ss = [Some 38; None; Some 0; Some 300]).
Proof. intros [|]; vm_compute; split; reflexivity. Qed.
Example C84_prog32_ex : forall dbg, after (ChT := Char32) dbg false plenty 0
  [SNew [1114111; 4294967295]; SNew (wides 300); SCopy 1; SOn 2 (UPush 128512); SDestroy 1; SOn 0 (UAppend (Piece 2 299 2))]
  (fun s ss => shows (ChT := Char32) s ss /\ map (option_map slen) ss = [Some 4; None; Some 301] /\ sget ss 0 = Some [1114111; 4294967295; 65299; 128512]).
Proof. intros [|]; vm_compute; repeat split; reflexivity. Qed.
Example C84_kinds_ex : forall dbg,
  after (ChT := Char16) dbg false plenty 0 [SNew (letters 11); SNew (letters 12); SNew (letters 127); SNew (letters 128)]
    (fun s _ => map (option_map category) (s_objs s) = [Some (if dbg then is_medium else is_small); Some is_medium; Some is_medium; Some is_large]) /\
  after (ChT := Char32) dbg false plenty 0 [SNew (letters 5); SNew (letters 6); SNew (letters 63); SNew (letters 64)]
    (fun s _ => map (option_map category) (s_objs s) = [Some (if dbg then is_medium else is_small); Some is_medium; Some is_medium; Some is_large]).
Proof. intros [|]; vm_compute; split; reflexivity. Qed.
Example C84_buffers_ex : forall ChT, ChT = Char16 \/ ChT = Char32 -> forall dbg, after dbg false plenty 0 [SNew (wides 200); SCopy 0; SCopy 1] (fun s _ =>
  map (fun k => (bk_kind k, bk_len k)) (h_blocks (s_heap s)) = [(Counted 3, 201)] /\ holders s 0 = 3).
Proof. intros ChT [-> | ->] [|]; vm_compute; split; reflexivity. Qed.
(** Searching, with the characters of C38. *)
Example C84_find_ex : after (ChT := Char16) false false plenty 0 [SNew (wides 300); SNew [65004; 65005]] (fun s _ =>
  match s_objs s with
  | [Some c; Some d] => find (str_mem (ChT := Char16) (s_heap s) c) (str_mem (ChT := Char16) (s_heap s) d) (size (ChT := Char16) c) (size (ChT := Char16) d) 3 = Ok 4
  | _ => False
  end).
Proof. vm_compute. reflexivity. Qed.
