(** Proofs about the rest of the string interface. *)
Require Import ZArith List Bool Lia Permutation.
From Verif Require Import Base BaseProofs StrSpec StrModel StrStatements StrProofs StrProofs2 StrProofs3 StrProofs4 StrProofs5 StrProofs6 StrProofs7 StrQuiet StrProofs8 StrProofs9 StrProofs10 StrProofs11 StrProofs12 StrProofs13 StrProofs14.
From Verif Require Import StrFindSpec StrFindModel StrFindProofs StrApiModel StrApiSpec.
Import ListNotations.
Open Scope Z_scope.


Section Wide.
Context {ChT : CharType}.

Lemma ready_objs s : s_objs (ready s) = s_objs s. Proof. reflexivity. Qed.
Lemma sees_obj s ss j m : sees s ss -> sget ss j = Some m -> exists d, sget (s_objs s) j = Some d /\ size d = slen m /\ reads (s_heap s) d m.
Proof.
  intros (_ & H) E. specialize (H j). rewrite E in H. destruct (sget (s_objs s) j) as [d|]; [|contradiction]. exists d. split; [reflexivity|]. split; [apply H|exact H].
Qed.
Lemma procrustes_piece {A} pos n (m : list A) : 0 <= pos <= slen m -> 0 <= n -> piece pos (procrustes n (slen m - pos)) m = piece pos n m.
Proof.
  intros H1 H2. unfold procrustes. destruct (Z.ltb_spec (slen m - pos) n); [|reflexivity]. symmetry. apply piece_clip; lia.
Qed.
Lemma procrustes_range n k : 0 <= n -> 0 <= k -> 0 <= procrustes n k <= k.
Proof. intros. unfold procrustes. destruct (Z.ltb_spec k n); lia. Qed.
Lemma procrustes_min n k : procrustes n k = Z.min n k.
Proof. unfold procrustes. destruct (Z.ltb_spec k n); lia. Qed.
Lemma part_arg ss j m pos n : sget ss j = Some m -> 0 <= pos <= slen m -> 0 <= n ->
  arg_val ss (Some (Piece j pos (procrustes n (slen m - pos)))) = Some (piece pos n m).
Proof.
  intros E H1 H2. pose proof (procrustes_range n (slen m - pos) H2 ltac:(lia)). rewrite (own_arg ss j m) by (assumption || lia). rewrite procrustes_piece by assumption. reflexivity.
Qed.
Lemma whole_arg ss j m : sget ss j = Some m -> arg_val ss (Some (Piece j 0 (slen m))) = Some m.
Proof. intros E. pose proof (slen_nonneg m). rewrite (own_arg ss j m) by (assumption || lia). unfold piece, sdrop. cbn [Z.to_nat skipn]. rewrite StrFindProofs.stake_all by lia. reflexivity. Qed.
Lemma cstr_arg memory x : c_string memory x -> traits_length memory = Ok (slen x) /\ stake (slen x) memory = x.
Proof.
  intros C. split; [apply length_cstring; exact C|]. destruct C as (_ & rest & ->). unfold stake, slen. rewrite Nat2Z.id.
  rewrite firstn_app, Nat.sub_diag, firstn_all. apply app_nil_r.
Qed.

Section R.
Variables (dbg arena : bool) (mal : nat -> Z -> bool) (ar : Z).
Hypotheses (MS : mal_sane mal) (AO : ar_ok dbg arena ar).
Notation reach := (StrStatements.reach dbg arena mal ar).
Notation step := (StrStatements.step dbg arena mal ar).
Notation INV N := (StrProofs2.Inv dbg arena mal ar N).
Notation BAD N := (StrProofs6.Bad dbg arena mal ar N).
Notation World := (StrProofs8.World dbg arena mal ar).
Notation W M s ss := (World M (s_heap s) (s_objs s) ss).

(** ** Overloads *)
Lemma is_step s o : sstep dbg arena mal ar (ready s) o = step s o. Proof. reflexivity. Qed.

Lemma append_part n s ss i j l m pos k : reach n s -> short n -> sees s ss -> sget ss i = Some l -> sget ss j = Some m -> size_t pos -> size_t k ->
  if pos <=? slen m then gives (append_sub dbg arena mal ar (ready s) i j pos k) (sset i (Some (l ++ piece pos k m)) ss)
  else append_sub dbg arena mal ar (ready s) i j pos k = SThr OutOfRange (ready s).
Proof.
  intros H SH SE El Em Hp Hk. destruct (sees_obj _ _ _ _ SE Em) as (d & Ed & Sd & _). unfold append_sub, obj. rewrite ready_objs, Ed, Sd, is_step.
  unfold size_t in *. destruct (Z.leb_spec pos (slen m)); [|reflexivity]. eapply (reach_on dbg arena mal ar MS AO); try eassumption; try reflexivity; try exact I.
  apply part_arg; [exact Em|lia|lia].
Qed.
Lemma assign_part n s ss i j l m pos k : reach n s -> short n -> sees s ss -> sget ss i = Some l -> sget ss j = Some m -> size_t pos -> size_t k ->
  if pos <=? slen m then gives (assign_sub dbg arena mal ar (ready s) i j pos k) (sset i (Some (piece pos k m)) ss)
  else assign_sub dbg arena mal ar (ready s) i j pos k = SThr OutOfRange (ready s).
Proof.
  intros H SH SE El Em Hp Hk. destruct (sees_obj _ _ _ _ SE Em) as (d & Ed & Sd & _). unfold assign_sub, obj. rewrite ready_objs, Ed, Sd, is_step.
  unfold size_t in *. destruct (Z.leb_spec pos (slen m)); [|reflexivity]. eapply (reach_on dbg arena mal ar MS AO); try eassumption; try reflexivity; try exact I.
  apply part_arg; [exact Em|lia|lia].
Qed.
Lemma insert_part n s ss i j l m pos1 pos k : reach n s -> short n -> sees s ss -> sget ss i = Some l -> sget ss j = Some m -> i <> j ->
  size_t pos1 -> size_t pos -> size_t k ->
  if (pos1 <=? slen l) && (pos <=? slen m) then gives (insert_sub dbg arena mal ar (ready s) i pos1 j pos k) (sset i (Some (stake pos1 l ++ piece pos k m ++ sdrop pos1 l)) ss)
  else insert_sub dbg arena mal ar (ready s) i pos1 j pos k = SThr OutOfRange (ready s).
Proof.
  intros H SH SE El Em NE Hp1 Hp Hk. destruct (sees_obj _ _ _ _ SE Em) as (d & Ed & Sd & _). unfold insert_sub, obj. rewrite ready_objs, Ed, Sd, is_step.
  unfold size_t in *. destruct (Z.leb_spec pos (slen m)); [|rewrite andb_false_r; reflexivity]. rewrite andb_true_r. destruct (pos1 <=? slen l) eqn:E1.
  - eapply (reach_on dbg arena mal ar MS AO); try eassumption.
    + apply part_arg; [exact Em|lia|lia].
    + cbn [u_apply]. unfold in_size. rewrite E1. unfold splice. rewrite Z.add_0_r. reflexivity.
    + split; [exact Hp1|]. split; [exact I|]. cbn. congruence.
  - eapply (reach_on_range dbg arena mal ar MS AO); try eassumption.
    + apply part_arg; [exact Em|lia|lia].
    + cbn [u_apply]. unfold in_size. rewrite E1. reflexivity.
Qed.
Lemma replace_part n s ss i j l m pos1 n1 pos k : reach n s -> short n -> sees s ss -> sget ss i = Some l -> sget ss j = Some m -> (ar <> 0 -> i <> j) ->
  size_t pos1 -> size_t n1 -> size_t pos -> size_t k ->
  if (pos1 <=? slen l) && (pos <=? slen m) then gives (replace_sub dbg arena mal ar (ready s) i pos1 n1 j pos k) (sset i (Some (stake pos1 l ++ piece pos k m ++ sdrop (pos1 + n1) l)) ss)
  else replace_sub dbg arena mal ar (ready s) i pos1 n1 j pos k = SThr OutOfRange (ready s).
Proof.
  intros H SH SE El Em NE Hp1 Hn1 Hp Hk. destruct (sees_obj _ _ _ _ SE Em) as (d & Ed & Sd & _). unfold replace_sub, obj. rewrite ready_objs, Ed, Sd, is_step, <- procrustes_min.
  unfold size_t in *. destruct (Z.leb_spec pos (slen m)); [|rewrite andb_false_r; reflexivity]. rewrite andb_true_r. destruct (pos1 <=? slen l) eqn:E1.
  - eapply (reach_on dbg arena mal ar MS AO); try eassumption.
    + apply part_arg; [exact Em|lia|lia].
    + cbn [u_apply]. unfold in_size. rewrite E1. reflexivity.
    + split; [exact Hp1|]. split; [exact Hn1|]. split; [exact I|]. cbn. intros EA X. apply (NE EA). congruence.
  - eapply (reach_on_range dbg arena mal ar MS AO); try eassumption.
    + apply part_arg; [exact Em|lia|lia].
    + cbn [u_apply]. unfold in_size. rewrite E1. reflexivity.
Qed.

Lemma len_bound n s ss i l : reach n s -> short n -> sees s ss -> sget ss i = Some l -> 0 <= slen l < limit /\ Forall is_char l.
Proof.
  intros H SH SE El. pose proof (world_of dbg arena mal ar MS AO n s ss H SH SE) as [I A B]. destruct (alike_obj _ _ _ _ A El) as (c & Ec).
  destruct (i_rep _ _ _ _ _ _ _ I c (map Some l)) as (RP & _); [eapply zip_in; eassumption|]. pose proof (rep_bound _ _ _ RP) as LO. rewrite slen_map in LO.
  pose proof (slen_nonneg l). split; [lia|exact (B _ _ El)].
Qed.
Lemma append_all n s ss i j l m : reach n s -> short n -> sees s ss -> sget ss i = Some l -> sget ss j = Some m ->
  gives (append_whole dbg arena mal ar (ready s) i j) (sset i (Some (l ++ m)) ss).
Proof.
  intros H SH SE El Em. destruct (sees_obj _ _ _ _ SE Em) as (d & Ed & Sd & _), (sees_obj _ _ _ _ SE El) as (c & Ec & Sc & _).
  destruct (len_bound n s ss i l H SH SE El) as (Ll & _), (len_bound n s ss j m H SH SE Em) as (Lm & _).
  unfold append_whole, obj. rewrite ready_objs, Ec, Ed, Sc, Sd, is_step.
  assert (G : gives (step s (SOn i (UAppend (Piece j 0 (slen m))))) (sset i (Some (l ++ m)) ss)).
  { eapply (reach_on dbg arena mal ar MS AO); try eassumption; try reflexivity; try exact I. apply whole_arg. exact Em. }
  destruct (step s _) as [s'|e s'|h'| |h']; cbn [check_size]; try exact G. cbn [gives] in G. unfold obj.
  destruct (sees_obj _ _ i (l ++ m) G) as (c' & Ec' & Sc' & _); [eapply sget_sset_eq; exact El|]. rewrite Ec', Sc', slen_app'.
  unfold add64. rewrite Z.mod_small by (unfold M64; lia). rewrite Z.eqb_refl. rewrite andb_false_r. exact G.
Qed.
Lemma assign_all n s ss i j l m : reach n s -> short n -> sees s ss -> sget ss i = Some l -> sget ss j = Some m ->
  gives (assign_whole dbg arena mal ar (ready s) i j) (sset i (Some m) ss).
Proof.
  intros H SH SE El Em. destruct (sees_obj _ _ _ _ SE Em) as (d & Ed & Sd & _). unfold assign_whole, obj. rewrite ready_objs, Ed, Sd, is_step.
  destruct (Nat.eqb_spec i j) as [<-|NE].
  - cbn [gives]. assert (l = m) as -> by congruence. rewrite sset_same by exact El. pose proof (world_of dbg arena mal ar MS AO n s ss H SH SE) as Ws.
    eapply World_sees. apply World_clean. exact Ws.
  - eapply (reach_on dbg arena mal ar MS AO); try eassumption; try reflexivity; try exact I. apply whole_arg. exact Em.
Qed.
Lemma insert_all n s ss i j l m pos : reach n s -> short n -> sees s ss -> sget ss i = Some l -> sget ss j = Some m -> i <> j -> size_t pos ->
  if pos <=? slen l then gives (insert_whole dbg arena mal ar (ready s) i pos j) (sset i (Some (stake pos l ++ m ++ sdrop pos l)) ss)
  else insert_whole dbg arena mal ar (ready s) i pos j = SThr OutOfRange (ready s).
Proof.
  intros H SH SE El Em NE Hp. destruct (sees_obj _ _ _ _ SE Em) as (d & Ed & Sd & _). unfold insert_whole, obj. rewrite ready_objs, Ed, Sd, is_step.
  destruct (pos <=? slen l) eqn:E1.
  - eapply (reach_on dbg arena mal ar MS AO); try eassumption; [apply whole_arg; exact Em| |].
    + cbn [u_apply]. unfold in_size. rewrite E1. unfold splice. rewrite Z.add_0_r. reflexivity.
    + split; [exact Hp|]. split; [exact I|]. cbn. congruence.
  - eapply (reach_on_range dbg arena mal ar MS AO); try eassumption; [apply whole_arg; exact Em|]. cbn [u_apply]. unfold in_size. rewrite E1. reflexivity.
Qed.
Lemma replace_all n s ss i j l m pos n1 : reach n s -> short n -> sees s ss -> sget ss i = Some l -> sget ss j = Some m -> (ar <> 0 -> i <> j) -> size_t pos -> size_t n1 ->
  if pos <=? slen l then gives (replace_whole dbg arena mal ar (ready s) i pos n1 j) (sset i (Some (stake pos l ++ m ++ sdrop (pos + n1) l)) ss)
  else replace_whole dbg arena mal ar (ready s) i pos n1 j = SThr OutOfRange (ready s).
Proof.
  intros H SH SE El Em NE Hp Hn. destruct (sees_obj _ _ _ _ SE Em) as (d & Ed & Sd & _). unfold replace_whole, obj. rewrite ready_objs, Ed, Sd, is_step.
  destruct (pos <=? slen l) eqn:E1.
  - eapply (reach_on dbg arena mal ar MS AO); try eassumption; [apply whole_arg; exact Em| |].
    + cbn [u_apply]. unfold in_size. rewrite E1. reflexivity.
    + split; [exact Hp|]. split; [exact Hn|]. split; [exact I|]. cbn. intros EA X. apply (NE EA). congruence.
  - eapply (reach_on_range dbg arena mal ar MS AO); try eassumption; [apply whole_arg; exact Em|]. cbn [u_apply]. unfold in_size. rewrite E1. reflexivity.
Qed.
Section CStr.
Variables (memory x : list Z).
Hypotheses (C : c_string memory x) (CH : chars x).
Lemma append_c n s ss i l : reach n s -> short n -> sees s ss -> sget ss i = Some l ->
  gives (append_cstr dbg arena mal ar (ready s) i memory) (sset i (Some (l ++ x)) ss).
Proof.
  intros H SH SE El. unfold append_cstr, with_cstr. destruct (cstr_arg _ _ C) as (-> & ->). rewrite is_step.
  eapply (reach_on dbg arena mal ar MS AO); try eassumption; reflexivity.
Qed.
Lemma assign_c n s ss i l : reach n s -> short n -> sees s ss -> sget ss i = Some l ->
  gives (assign_cstr dbg arena mal ar (ready s) i memory) (sset i (Some x) ss).
Proof.
  intros H SH SE El. unfold assign_cstr, with_cstr. destruct (cstr_arg _ _ C) as (-> & ->). rewrite is_step.
  eapply (reach_on dbg arena mal ar MS AO); try eassumption; reflexivity.
Qed.
Lemma insert_c n s ss i l pos : reach n s -> short n -> sees s ss -> sget ss i = Some l -> size_t pos ->
  if pos <=? slen l then gives (insert_cstr dbg arena mal ar (ready s) i pos memory) (sset i (Some (stake pos l ++ x ++ sdrop pos l)) ss)
  else insert_cstr dbg arena mal ar (ready s) i pos memory = SThr OutOfRange (ready s).
Proof.
  intros H SH SE El Hp. unfold insert_cstr, with_cstr. destruct (cstr_arg _ _ C) as (-> & ->). rewrite is_step. destruct (pos <=? slen l) eqn:E1.
  - eapply (reach_on dbg arena mal ar MS AO); try eassumption; [reflexivity| |].
    + cbn [u_apply]. unfold in_size. rewrite E1. unfold splice. rewrite Z.add_0_r. reflexivity.
    + split; [exact Hp|]. split; [exact CH|exact I].
  - eapply (reach_on_range dbg arena mal ar MS AO); try eassumption; [reflexivity|]. cbn [u_apply]. unfold in_size. rewrite E1. reflexivity.
Qed.
Lemma replace_c n s ss i l pos n1 : reach n s -> short n -> sees s ss -> sget ss i = Some l -> size_t pos -> size_t n1 ->
  if pos <=? slen l then gives (replace_cstr dbg arena mal ar (ready s) i pos n1 memory) (sset i (Some (stake pos l ++ x ++ sdrop (pos + n1) l)) ss)
  else replace_cstr dbg arena mal ar (ready s) i pos n1 memory = SThr OutOfRange (ready s).
Proof.
  intros H SH SE El Hp Hn. unfold replace_cstr, with_cstr. destruct (cstr_arg _ _ C) as (-> & ->). rewrite is_step. destruct (pos <=? slen l) eqn:E1.
  - eapply (reach_on dbg arena mal ar MS AO); try eassumption; [reflexivity| |].
    + cbn [u_apply]. unfold in_size. rewrite E1. reflexivity.
    + split; [exact Hp|]. split; [exact Hn|]. split; [exact CH|]. intros _. exact I.
  - eapply (reach_on_range dbg arena mal ar MS AO); try eassumption; [reflexivity|]. cbn [u_apply]. unfold in_size. rewrite E1. reflexivity.
Qed.
Lemma new_c n s ss : reach n s -> short n -> sees s ss -> gives (new_cstr dbg arena mal ar (ready s) memory) (ss ++ [Some x]).
Proof.
  intros H SH SE. unfold new_cstr. destruct (cstr_arg _ _ C) as (-> & ->). rewrite is_step.
  assert (AL : allowed ar ss (SNew x)) by (split; [discriminate|exact CH]).
  pose proof (reach_step dbg arena mal ar n s ss _ MS AO H SH SE AL) as Y. unfold step_ok in Y. cbn [s_apply] in Y. unfold gives.
  destruct (step s (SNew x)) as [s'|e s'|h'| |h']; try exact Y.
  - destruct Y as (ss' & [E|[]] & SE'). injection E as <-. exact SE'.
  - destruct e; try exact Y; try apply Y. destruct Y as ((ss' & [E|[]] & _) & _). discriminate E.
Qed.
End CStr.

(** ** Iterators *)
Lemma unique_shared N h c l R : INV N h ((c, l) :: R) -> unique h c -> is_shared h c = Ret false h c.
Proof.
  intros I U. destruct (Inv_head _ _ _ _ _ _ _ _ _ I) as (RP & _). destruct RP as [S|(k & cap & HR)].
  - unfold is_shared, bnd, this. pose proof (small_heapy _ _ S) as X. unfold heapy in X. destruct (Z.eqb_spec (category c) is_small) as [E|]; [|discriminate]. rewrite E. reflexivity.
  - pose proof (heap_cat _ _ _ _ _ HR) as CT. unfold is_shared, bnd, this. rewrite CT. destruct (bk_kind k) as [|r] eqn:K; [reflexivity|].
    cbn [is_large Z.eqb Pos.eqb]. rewrite (refs_ok _ _ _ _ _ _ c HR K). destruct (unique_sole _ _ _ _ _ U HR) as [X|X]; rewrite K in X; [discriminate|]. injection X as ->. reflexivity.
Qed.
Definition at_ptr N (R : pairs) (x : list Z) (k : Z) : ptr -> heap -> core -> Prop :=
  fun p h' c' => INV N h' ((c', map Some x) :: R) /\ unique h' c' /\ p = ptr_add (data c') k.
Lemma on_obj_ptr_gives n s ss i l l' k m : reach n s -> short n -> sees s ss -> sget ss i = Some l -> Forall is_char l' ->
  (forall R h c, INV (Z.of_nat n + 1) h ((c, map Some l) :: R) -> Forall is_char l ->
     spec m h c (at_ptr (Z.of_nat n + 1) R l' k) (BAD (Z.of_nat n + 1) R)) ->
  gives_ptr (sset i (Some l') ss) i k (on_obj_ptr (ready s) i m).
Proof.
  intros H SH SE El Bl HS. pose proof (world_of dbg arena mal ar MS AO n s ss H SH SE) as Ws. pose proof (World_clean _ _ _ _ _ _ _ _ Ws) as Wc.
  destruct (alike_obj _ _ _ _ (w_alike _ _ _ _ _ _ _ _ Ws) El) as (c & Ec). destruct Wc as [I A B].
  destruct (focus _ _ i c l A Ec El) as (R & P1 & P2 & _). unfold on_obj_ptr, ready. cbn [s_objs s_heap]. rewrite Ec.
  specialize (HS R (clean (s_heap s)) c (Inv_perm _ _ _ _ _ _ _ _ P1 I) (B _ _ El)). unfold spec in HS.
  destruct (m (clean (s_heap s)) c) as [p h' c'|e h' c'|h'| |h']; cbn [gives_ptr s_heap]; try exact HS.
  - destruct HS as (I' & U & ->). split.
    + eapply World_sees. constructor; cbn [s_heap s_objs].
      * eapply Inv_perm; [symmetry; apply P2|exact I'].
      * apply alike_sset; [exact Logic.I|exact A].
      * apply bytes_sset; assumption.
    + exists c'. cbn [s_objs s_heap]. split; [eapply sget_sset_eq; exact Ec|]. split; [reflexivity|]. eapply unique_shared; eassumption.
  - destruct HS as (-> & F & X). cbn [gives_ptr s_heap]. split; [exact F|]. intros RF. destruct X as [(x & Gx & Ix)|(_ & RF' & _)]; [|congruence].
    destruct (good_inv _ Gx) as (v & -> & Bv). exists v. split; [exact Bv|]. rewrite sset_twice. eapply World_sees. constructor; cbn [s_heap s_objs].
    + eapply Inv_perm; [symmetry; apply P2|exact Ix].
    + apply alike_sset; [exact Logic.I|exact A].
    + apply bytes_sset; assumption.
Qed.
Lemma guard_ptr N h o l R (m : M ptr) x k : INV N h ((o, l) :: R) -> spec m h o (at_ptr N R x k) (BAD N R) -> spec (guarded dbg m) h o (at_ptr N R x k) (BAD N R).
Proof.
  intros I H. destruct (Inv_head _ _ _ _ _ _ _ _ _ I) as (RP & _).
  eapply spec_guarded; [exact RP|exact H|intros a h' o' (I' & _); eapply Inv_settled; exact I'|intros e h' o' X; eapply Bad_settled; exact X].
Qed.
Lemma insert_n_iter_spec N h o l R pos n c : INV N h ((o, map Some l) :: R) -> Forall is_char l -> is_char c -> 0 <= pos <= slen l -> 0 <= n < limit ->
  spec (insert_n_iter dbg arena mal pos n c) h o (at_ptr N R (splice pos 0 (srep n c) l) pos) (BAD N R).
Proof.
  intros I Bl Hc Hp Hn. pose proof (good_map _ Bl) as Gl. pose proof (len_ok _ _ _ _ _ _ _ _ _ I) as LO. pose proof (slen_map Some l) as SL. rewrite <- SL in Hp.
  unfold insert_n_iter. eapply guard_ptr; [exact I|]. apply spec_size. rewrite (size_ok _ _ _ _ _ _ _ _ _ I).
  apply spec_assert; [apply andb_true_intro; split; apply Z.leb_le; lia|].
  eapply spec_bnd; [eapply spec_Keep_Bad; [exact Gl|eapply expand_spec; [exact I|lia|lia]]|]. intros q h' o' (u & I' & Lu & _ & _).
  eapply begin_then; [exact I'|]. intros h2 o2 I2 U _. set (ll := map Some l) in *.
  assert (RD : read (ptr_add (data o2) pos) (slen ll - pos) h2 o2 = Ret (piece pos (slen ll - pos) ll) h2 o2).
  { rewrite (own_read _ _ _ _ _ _ _ _ _ pos (slen ll - pos) I2) by (slens; lia). f_equal. lists. }
  destruct (move_own _ _ _ _ _ h2 o2 (ll ++ u) R (pos + n) _ _ _ I2 (or_introl U) RD) as (h3 & o3 & W & I3 & D3 & _ & U3 & _);
    [slens; lia|apply good_piece; exact Gl|lia|slens; lia|].
  eapply spec_eq; [exact W|]. rewrite <- (data_eq o2 o3 D3).
  destruct (fill_own _ _ _ _ _ h3 o3 _ R pos n c I3 (or_introl (U3 U)) Hc) as (h4 & o4 & W4 & I4 & D4 & _ & U4 & _); [lia|lia|slens; lia|].
  eapply spec_eq; [exact W4|]. apply spec_ret. rewrite insert_list in I4 by (slens; lia). split; [|split; [exact (U4 (U3 U))|rewrite D4; reflexivity]].
  rewrite map_splice, map_srep. exact I4.
Qed.
Lemma insert_iter_spec N h o l R pos x : INV N h ((o, map Some l) :: R) -> Forall is_char l -> chars x -> 0 <= pos <= slen l ->
  spec (insert_iter dbg arena mal pos (PExt (map Some x)) (slen x)) h o (at_ptr N R (splice pos 0 x l) pos) (BAD N R).
Proof.
  intros I Bl (Bx & Lx) Hp. pose proof (good_map _ Bl) as Gl. pose proof (good_map _ Bx) as Gx. pose proof (len_ok _ _ _ _ _ _ _ _ _ I) as LO.
  pose proof (slen_map Some l) as SL. rewrite <- SL in Hp. pose proof (slen_nonneg x) as X0. pose proof (slen_map Some x) as SX.
  unfold insert_iter. eapply guard_ptr; [exact I|]. apply spec_size. rewrite (size_ok _ _ _ _ _ _ _ _ _ I).
  apply spec_assert; [apply andb_true_intro; split; apply Z.leb_le; lia|].
  eapply spec_bnd; [eapply spec_Keep_Bad; [exact Gl|eapply expand_spec; [exact I|lia|lia]]|]. intros q h' o' (u & I' & Lu & _ & _).
  eapply begin_then; [exact I'|]. intros h2 o2 I2 U _. set (ll := map Some l) in *. set (n := slen x) in *.
  assert (RD : read (ptr_add (data o2) pos) (slen ll - pos) h2 o2 = Ret (piece pos (slen ll - pos) ll) h2 o2).
  { rewrite (own_read _ _ _ _ _ _ _ _ _ pos (slen ll - pos) I2) by (slens; lia). f_equal. lists. }
  destruct (move_own _ _ _ _ _ h2 o2 (ll ++ u) R (pos + n) _ _ _ I2 (or_introl U) RD) as (h3 & o3 & W & I3 & D3 & _ & U3 & _);
    [slens; lia|apply good_piece; exact Gl|lia|slens; lia|].
  eapply spec_eq; [exact W|]. rewrite <- (data_eq o2 o3 D3).
  pose proof (Inv_tail_src dbg arena mal ar N h3 o3 _ R _ n (map Some x) I3 (src_ext R x)) as RD3.
  destruct (move_own _ _ _ _ _ h3 o3 _ R pos _ n _ I3 (or_introl (U3 U)) RD3 SX Gx) as (h4 & o4 & W4 & I4 & D4 & _ & U4 & _); [lia|slens; lia|].
  eapply spec_eq; [exact W4|]. apply spec_ret. rewrite insert_list in I4 by (slens; lia). split; [|split; [exact (U4 (U3 U))|rewrite D4; reflexivity]].
  rewrite map_splice. exact I4.
Qed.
Lemma insert_char_spec N h o l R pos c : INV N h ((o, map Some l) :: R) -> Forall is_char l -> is_char c -> 0 <= pos <= slen l ->
  spec (insert_char dbg arena mal pos c) h o (at_ptr N R (splice pos 0 [c] l) pos) (BAD N R).
Proof.
  intros I Bl Hc Hp. unfold insert_char. eapply spec_bnd; [eapply insert_n_iter_spec; try eassumption; lia|]. intros p h' o' (I' & _).
  eapply begin_then; [exact I'|]. intros h2 o2 I2 U _. apply spec_ret. split; [exact I2|]. split; [exact U|reflexivity].
Qed.
Lemma erase_iters_spec N h o l R a b : INV N h ((o, map Some l) :: R) -> Forall is_char l -> 0 <= a <= slen l -> a <= b ->
  spec (erase_iters dbg arena mal a b) h o (at_ptr N R (splice a (b - a) [] l) a) (BAD N R).
Proof.
  intros I Bl Ha Hb. pose proof (slen_map Some l) as SL. rewrite <- SL in Ha. unfold erase_iters. eapply begin_then; [exact I|]. intros h' o' I' U _.
  eapply spec_bnd; [eapply erase_spec; [exact I'|apply good_map; exact Bl|lia|lia]|]. intros u h2 o2 I2. cbv beta in I2.
  eapply begin_then; [exact I2|]. intros h3 o3 I3 U3 _. apply spec_ret. split; [|split; [exact U3|reflexivity]]. rewrite map_splice. exact I3.
Qed.
Lemma erase_pos_spec N h o l R a : INV N h ((o, map Some l) :: R) -> Forall is_char l -> 0 <= a <= slen l ->
  spec (erase_pos dbg arena mal a) h o (at_ptr N R (splice a 1 [] l) a) (BAD N R).
Proof.
  intros I Bl Ha. pose proof (slen_map Some l) as SL. rewrite <- SL in Ha. unfold erase_pos. eapply begin_then; [exact I|]. intros h' o' I' U _.
  apply spec_size. rewrite (size_ok _ _ _ _ _ _ _ _ _ I'). unfold enforce. replace (a <=? slen (map Some l)) with true by (symmetry; apply Z.leb_le; lia). apply spec_bret.
  eapply spec_bnd; [eapply erase_spec; [exact I'|apply good_map; exact Bl|lia|lia]|]. intros u h2 o2 I2. cbv beta in I2.
  eapply begin_then; [exact I2|]. intros h3 o3 I3 U3 _. apply spec_ret. split; [|split; [exact U3|reflexivity]]. rewrite map_splice. exact I3.
Qed.
Lemma begin_iter_spec N h o l R : INV N h ((o, map Some l) :: R) -> spec (begin_iter dbg arena mal) h o (at_ptr N R l 0) (BAD N R).
Proof.
  intros I. unfold begin_iter. eapply spec_imp; [eapply begin_spec with (E := fun _ _ _ => False); exact I| |intros ? ? ? []].
  intros p h' o' (I' & U & -> & _). split; [exact I'|]. split; [exact U|]. rewrite ptr_add0. reflexivity.
Qed.
Lemma end_iter_spec N h o l R : INV N h ((o, map Some l) :: R) -> spec (end_iter dbg arena mal) h o (at_ptr N R l (slen l)) (BAD N R).
Proof.
  intros I. unfold end_iter. eapply begin_then; [exact I|]. intros h' o' I' U _. apply spec_size. rewrite (size_ok _ _ _ _ _ _ _ _ _ I'), slen_map.
  apply spec_ret. split; [exact I'|]. split; [exact U|reflexivity].
Qed.

Lemma iter_insert_n n s ss i l pos k c : reach n s -> short n -> sees s ss -> sget ss i = Some l -> 0 <= pos <= slen l -> count k -> is_char c ->
  gives_ptr (sset i (Some (stake pos l ++ srep k c ++ sdrop pos l)) ss) i pos (on_obj_ptr (ready s) i (insert_n_iter dbg arena mal pos k c)).
Proof.
  intros H SH SE El Hp Hk Hc. destruct (len_bound n s ss i l H SH SE El) as (_ & Bl).
  replace (stake pos l ++ srep k c ++ sdrop pos l) with (splice pos 0 (srep k c) l) by (unfold splice; rewrite Z.add_0_r; reflexivity).
  eapply on_obj_ptr_gives; try eassumption; [apply bytes_splice; [exact Bl|apply bytes_srep; exact Hc]|]. intros R h o I _. eapply insert_n_iter_spec; eassumption.
Qed.
Lemma iter_insert n s ss i l pos x : reach n s -> short n -> sees s ss -> sget ss i = Some l -> 0 <= pos <= slen l -> chars x ->
  gives_ptr (sset i (Some (stake pos l ++ x ++ sdrop pos l)) ss) i pos (on_obj_ptr (ready s) i (insert_iter dbg arena mal pos (PExt (map Some x)) (slen x))).
Proof.
  intros H SH SE El Hp Hx. destruct (len_bound n s ss i l H SH SE El) as (_ & Bl).
  replace (stake pos l ++ x ++ sdrop pos l) with (splice pos 0 x l) by (unfold splice; rewrite Z.add_0_r; reflexivity).
  eapply on_obj_ptr_gives; try eassumption; [apply bytes_splice; [exact Bl|apply Hx]|]. intros R h o I _. eapply insert_iter_spec; eassumption.
Qed.
Lemma iter_insert_char n s ss i l pos c : reach n s -> short n -> sees s ss -> sget ss i = Some l -> 0 <= pos <= slen l -> is_char c ->
  gives_ptr (sset i (Some (stake pos l ++ c :: sdrop pos l)) ss) i pos (on_obj_ptr (ready s) i (insert_char dbg arena mal pos c)).
Proof.
  intros H SH SE El Hp Hc. destruct (len_bound n s ss i l H SH SE El) as (_ & Bl).
  replace (stake pos l ++ c :: sdrop pos l) with (splice pos 0 [c] l) by (unfold splice; rewrite Z.add_0_r; reflexivity).
  eapply on_obj_ptr_gives; try eassumption; [apply bytes_splice; [exact Bl|constructor; [exact Hc|constructor]]|]. intros R h o I _. eapply insert_char_spec; eassumption.
Qed.
Lemma iter_erase n s ss i l a b : reach n s -> short n -> sees s ss -> sget ss i = Some l -> 0 <= a <= b -> b <= slen l ->
  gives_ptr (sset i (Some (stake a l ++ sdrop b l)) ss) i a (on_obj_ptr (ready s) i (erase_iters dbg arena mal a b)).
Proof.
  intros H SH SE El Ha Hb. destruct (len_bound n s ss i l H SH SE El) as (_ & Bl).
  replace (stake a l ++ sdrop b l) with (splice a (b - a) [] l) by (unfold splice; replace (a + (b - a)) with b by lia; reflexivity).
  eapply on_obj_ptr_gives; try eassumption; [apply bytes_splice; [exact Bl|constructor]|]. intros R h o I _. eapply erase_iters_spec; try eassumption; lia.
Qed.
Lemma iter_erase_one n s ss i l a : reach n s -> short n -> sees s ss -> sget ss i = Some l -> 0 <= a < slen l ->
  gives_ptr (sset i (Some (stake a l ++ sdrop (a + 1) l)) ss) i a (on_obj_ptr (ready s) i (erase_pos dbg arena mal a)).
Proof.
  intros H SH SE El Ha. destruct (len_bound n s ss i l H SH SE El) as (_ & Bl).
  change (stake a l ++ sdrop (a + 1) l) with (splice a 1 [] l).
  eapply on_obj_ptr_gives; try eassumption; [apply bytes_splice; [exact Bl|constructor]|]. intros R h o I _. eapply erase_pos_spec; try eassumption; lia.
Qed.
Lemma iter_begin n s ss i l : reach n s -> short n -> sees s ss -> sget ss i = Some l ->
  gives_ptr ss i 0 (on_obj_ptr (ready s) i (begin_iter dbg arena mal)) /\ gives_ptr ss i (slen l) (on_obj_ptr (ready s) i (end_iter dbg arena mal)).
Proof.
  intros H SH SE El. destruct (len_bound n s ss i l H SH SE El) as (_ & Bl). rewrite <- (sset_same i l ss El). split.
  - eapply on_obj_ptr_gives; try eassumption. intros R h o I _. eapply begin_iter_spec; eassumption.
  - eapply on_obj_ptr_gives; try eassumption. intros R h o I _. eapply end_iter_spec; eassumption.
Qed.

(** ** Iterators as pointers *)
Lemma at_iter_index n s ss i l k p f : reach n s -> short n -> sees s ss -> sget ss i = Some l -> points_to s i k p -> 0 <= k ->
  on_obj_ptr (ready s) i (at_iter dbg arena mal p f) = on_obj_ptr (ready s) i (f k).
Proof.
  intros H SH SE El (c & Ec & -> & NS) Hk. unfold on_obj_ptr, ready. cbn [s_objs s_heap]. rewrite Ec.
  assert (E : at_iter dbg arena mal (ptr_add (data c) k) f (clean (s_heap s)) c = f k (clean (s_heap s)) c); [|rewrite E; reflexivity].
  pose proof (world_of dbg arena mal ar MS AO n s ss H SH SE) as Ws. pose proof (World_clean _ _ _ _ _ _ _ _ Ws) as Wc.
  pose proof Wc as [I A B]. destruct (focus _ _ i c l A Ec El) as (R & P1 & P2 & _). pose proof (Inv_perm _ _ _ _ _ _ _ _ P1 I) as I'.
  assert (BE : begin_ dbg arena mal (clean (s_heap s)) c = Ret (data c) (clean (s_heap s)) c).
  { unfold begin_, mutable_data. assert (EM : forall (m : M ptr) h x, m h x = Ret (data c) h x -> noexc ((if arena then fun m => m else noexc) m) h x = Ret (data c) h x).
    { intros m h x E. unfold noexc. destruct arena; rewrite E; reflexivity. }
    apply EM. clear EM. unfold is_shared, bnd, this in *. unfold data. destruct (Inv_head _ _ _ _ _ _ _ _ _ I') as (RP & _). destruct RP as [S|(b & cap & HR)].
    - pose proof (small_heapy _ _ S) as X. unfold heapy in X. destruct (Z.eqb_spec (category c) is_small) as [E|]; [|discriminate]. reflexivity.
    - pose proof (heap_cat _ _ _ _ _ HR) as CT. rewrite CT in *. destruct (bk_kind b) as [|r] eqn:K; [reflexivity|]. cbn [is_large is_small is_medium Z.eqb Pos.eqb] in *.
      unfold refs in *. change (blk (clean (s_heap s)) (c_data c)) with (blk (s_heap s) (c_data c)). destruct (blk (s_heap s) (c_data c)) as [q|]; [|discriminate].
      destruct (bk_live q), (bk_kind q) as [|r']; try discriminate. destruct (1 <? r'); [discriminate|]. reflexivity. }
  unfold at_iter, iter_index, bnd. rewrite BE. unfold data. destruct (category c =? is_small); cbn [ptr_add]; rewrite ?Z.eqb_refl; unfold ret; rewrite Z.sub_0_r, Z.add_0_l; reflexivity.
Qed.
(** ** Writing through a pointer *)
Lemma write_kept n s ss i k l p off v : reach n s -> short n -> sees s ss -> sget ss i = Some l -> points_to s i k p -> 0 <= k -> 0 <= off -> k + off < slen l -> is_char v ->
  exists s', write_through s i p off v = SRet s' /\ sees s' (sset i (Some (splice (k + off) 1 [v] l)) ss).
Proof.
  intros H SH SE El (c & Ec & -> & NS) Hk Ho Hl Bv.
  destruct (reach_poke dbg arena mal ar MS AO n s ss i c l (k + off) v H SH SE Ec El NS) as (s' & E & SE'); [lia|exact Bv|].
  exists s'. split; [|exact SE']. rewrite <- E. unfold write_through, poke_obj, on_obj. rewrite Ec. unfold poke, bnd, this.
  replace (ptr_add (ptr_add (data c) k) off) with (ptr_add (data c) (k + off)); [reflexivity|].
  destruct (data c); cbn [ptr_add]; try (f_equal; lia). f_equal. unfold sdrop. rewrite <- (Nat2Z.id (Z.to_nat off)). 
  revert l0. intros. rewrite Z2Nat.inj_add by lia. rewrite Nat2Z.id. generalize (Z.to_nat k) (Z.to_nat off). clear. intros a b. revert l0. induction a; intros [|x l0]; cbn; auto. destruct b; reflexivity.
Qed.
End R.
End Wide.
