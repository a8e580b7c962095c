(** Proofs about reading strings: StrApiModel, second half. *)
Require Import ZArith List Bool Lia.
From Verif Require Import Base StrSpec StrModel StrStatements StrFindSpec StrFindModel StrFindProofs StrApiModel StrApiSpec.
Import ListNotations.
Open Scope Z_scope.


Section Wide.
Context {ChT : CharType}.

Lemma map_seq_shift {A} (F : nat -> A) n : forall a b, map (fun k => F (a + k)%nat) (seq b n) = map F (seq (a + b) n).
Proof. induction n as [|n IH]; intros a b; cbn [seq map]; [reflexivity|]. f_equal. rewrite IH. f_equal. f_equal. lia. Qed.
Lemma chars_from_piece {A} (f : Z -> A) n pos k x : chars_from f 0 n = x -> 0 <= pos -> 0 <= k -> pos + k <= n -> chars_from f (0 + pos) k = stake k (sdrop pos x).
Proof.
  intros <- Hp Hk Hn. unfold chars_from, stake, sdrop. rewrite skipn_map, firstn_map.
  replace (firstn (Z.to_nat k) (skipn (Z.to_nat pos) (seq 0 (Z.to_nat n)))) with (seq (Z.to_nat pos) (Z.to_nat k)).
  - rewrite <- (Nat.add_0_r (Z.to_nat pos)). rewrite <- (map_seq_shift (fun i => f (0 + Z.of_nat i))). apply map_ext. intros a. f_equal. lia.
  - replace (Z.to_nat n) with (Z.to_nat pos + (Z.to_nat k + (Z.to_nat n - Z.to_nat pos - Z.to_nat k)))%nat by lia. rewrite !seq_app.
    rewrite skipn_app, seq_length, Nat.sub_diag, skipn_all2 by (rewrite seq_length; lia). cbn [app skipn Nat.add].
    rewrite firstn_app, seq_length, Nat.sub_diag, firstn_all2 by (rewrite seq_length; lia). cbn [firstn]. rewrite app_nil_r. reflexivity.
Qed.
Lemma read_piece h c l pos n : reads h c l -> 0 <= pos -> 0 <= n -> pos + n <= slen l ->
  read (ptr_add (data c) pos) n h c = StrModel.Ret (map Some (stake n (sdrop pos l))) h c.
Proof.
  intros (S & V & _) Hp Hn Hl. unfold value in V. rewrite S in V. destruct (read (data c) (slen l) h c) as [v h' c'| | | |] eqn:R; try discriminate. injection V as ->.
  replace (map Some (stake n (sdrop pos l))) with (stake n (sdrop pos (map Some l))) by (unfold stake, sdrop; rewrite skipn_map, firstn_map; reflexivity).
  unfold data in *. unfold read, ptr_add in *. pose proof (slen0 l). destruct (category c =? is_small).
  - destruct (Z.leb_spec 0 0); [|lia]. destruct (Z.leb_spec 0 (slen l)); [|lia]. cbn [andb] in R. destruct (Z.leb_spec (0 + slen l) num_small); [|discriminate].
    destruct (Z.leb_spec 0 (0 + pos)); [|lia]. destruct (Z.leb_spec 0 n); [|lia]. destruct (Z.leb_spec (0 + pos + n) num_small); [|lia]. cbn [andb].
    injection R as R1 R2 R3. rewrite (chars_from_piece _ _ _ _ _ R1) by lia. reflexivity.
  - destruct (blk h (c_data c)) as [k|]; [|discriminate]. destruct (in_blk k 0 (slen l)) eqn:IB; [|discriminate]. unfold in_blk in IB.
    apply andb_prop in IB. destruct IB as (IB & I3). apply andb_prop in IB. destruct IB as (IB & I2). apply andb_prop in IB. destruct IB as (I0 & I1). apply Z.leb_le in I3.
    unfold in_blk. rewrite I0. destruct (Z.leb_spec 0 (0 + pos)); [|lia]. destruct (Z.leb_spec 0 n); [|lia]. destruct (Z.leb_spec (0 + pos + n) (bk_len k)); [|lia]. cbn [andb].
    injection R as R1 R2 R3. rewrite (chars_from_piece _ _ _ _ _ R1) by lia. reflexivity.
Qed.

Section Reading.
Variables (h : heap) (c : core) (l : list Z).
Hypothesis R : reads h c l.
Let m := str_mem h c.
Lemma m_like0 : like m (l ++ [0]). Proof. apply reads_like. exact R. Qed.
Lemma m_like : like m l. Proof. apply (like_more _ l [0]). apply m_like0. Qed.
Lemma m_size : size c = slen l. Proof. apply R. Qed.

Lemma copy_ok dbg dst n pos : 0 <= pos -> 0 <= n -> slen (piece pos n l) <= slen dst ->
  copy_to dbg dst n pos h c = if pos <=? slen l then StrModel.Ret (slen (piece pos n l), map Some (piece pos n l) ++ sdrop (slen (piece pos n l)) dst) h c
                              else Thr OutOfRange h c.
Proof.
  intros Hp Hn. pose proof (slen0 l) as L0. unfold copy_to, bnd, size_m, this, enforce. cbn -[Z.leb read]. rewrite m_size.
  destruct (Z.leb_spec pos (slen l)); [|reflexivity].
  assert (E : procrustes n (slen l - pos) = slen (piece pos n l)).
  { unfold procrustes, piece. destruct (Z.ltb_spec (slen l - pos) n).
    - rewrite stake_all by (rewrite slen_sdrop; lia). rewrite slen_sdrop by lia. reflexivity.
    - rewrite slen_stake by (rewrite slen_sdrop; lia). reflexivity. }
  unfold ret. cbv beta iota. rewrite E. intros H1. destruct (Z.eqb_spec (slen (piece pos n l)) 0) as [Z0|NZ].
  - rewrite Z0. destruct (piece pos n l) as [|x r]; [reflexivity|rewrite slen_cons in Z0; pose proof (slen0 r); lia].
  - assert (L1 : slen (piece pos n l) <= slen l - pos) by (rewrite <- E; unfold procrustes; destruct (Z.ltb_spec (slen l - pos) n); lia).
    rewrite (read_piece h c l) by (try exact R; try lia; apply slen0). cbv iota. destruct (Z.leb_spec (slen (piece pos n l)) (slen dst)); [|lia]. f_equal.
    f_equal. f_equal. f_equal. unfold piece, stake, slen. rewrite firstn_length, Nat2Z.id. destruct (Nat.le_ge_cases (Z.to_nat n) (length (sdrop pos l))).
    + rewrite Nat.min_l by lia. reflexivity.
    + rewrite Nat.min_r by lia. rewrite firstn_all, firstn_all2 by lia. reflexivity.
Qed.
Lemma sub_ok pos : 0 <= pos <= slen l -> sub_const m pos = Ok (g (l ++ [0]) pos).
Proof. intros H. apply load_like; [apply m_like0|]. rewrite slen_app'. change (slen [0]) with 1. lia. Qed.
Lemma at_ok n : 0 <= n -> at_const m (size c) n = Ok (nth_error l (Z.to_nat n)).
Proof.
  intros H. unfold at_const. rewrite m_size. destruct (Z.ltb_spec n (slen l)).
  - unfold sub_const. rewrite (load_like m l) by (try apply m_like; lia). cbn [bind]. f_equal. symmetry. apply nth_error_nth'. unfold slen in *; lia.
  - f_equal. symmetry. apply nth_error_None. unfold slen in *; lia.
Qed.
Lemma front_ok x r : l = x :: r -> front_const m = Ok x.
Proof. intros E. unfold front_const. rewrite (load_like m l) by (try apply m_like; rewrite E, slen_cons; pose proof (slen0 r); lia). rewrite E. reflexivity. Qed.
Lemma back_ok dbg x r : l = r ++ [x] -> back_const dbg m (size c) = Ok x.
Proof.
  intros E. pose proof (slen0 r). assert (S : slen l = slen r + 1) by (rewrite E, slen_app'; reflexivity). unfold back_const. rewrite m_size.
  destruct (Z.eqb_spec (slen l) 0); [lia|]. rewrite andb_false_r. rewrite (load_like m l) by (try apply m_like; lia). rewrite E, g_app2 by (rewrite <- E; lia).
  replace (slen (r ++ [x]) - 1 - slen r) with 0 by (rewrite <- E; lia). reflexivity.
Qed.
Lemma walk_ok : forall k i fuel, 0 <= i -> i + Z.of_nat k = slen l -> (k < fuel)%nat -> walk m fuel i (slen l) = Ok (sdrop i l).
Proof.
  induction k as [|k IH]; intros i fuel Hi E Hf; (destruct fuel as [|fuel]; [lia|]); cbn [walk].
  - replace i with (slen l) by lia. rewrite Z.eqb_refl. unfold sdrop, slen. rewrite Nat2Z.id, skipn_all. reflexivity.
  - destruct (Z.eqb_spec i (slen l)); [lia|]. rewrite (load_like m l) by (try apply m_like; lia). cbn [bind]. rewrite IH by lia. cbn [bind]. f_equal.
    apply g_ext; [rewrite slen_cons, !slen_sdrop by lia; lia|]. intros j Hj. rewrite slen_cons, slen_sdrop in Hj by lia.
    rewrite g_sdrop by lia. destruct (Z.eq_dec j 0) as [->|]; [rewrite g_cons0; f_equal; lia|]. rewrite g_cons by lia. rewrite g_sdrop by lia. f_equal. lia.
Qed.
Lemma forward_ok : forward_loop m (size c) = Ok l.
Proof. unfold forward_loop. rewrite m_size. rewrite (walk_ok (length l)); unfold slen; try lia. reflexivity. Qed.
Lemma walk_back_ok : forall k fuel, (k <= length l)%nat -> (k < fuel)%nat -> walk_back m fuel (Z.of_nat k) 0 = Ok (rev (firstn k l)).
Proof.
  induction k as [|k IH]; intros fuel Hk Hf; (destruct fuel as [|fuel]; [lia|]); cbn [walk_back].
  - reflexivity.
  - destruct (Z.eqb_spec (Z.of_nat (S k)) 0); [lia|]. replace (Z.of_nat (S k) - 1) with (Z.of_nat k) by lia. rewrite (load_like m l) by (try apply m_like; unfold slen; lia).
    cbn [bind]. rewrite IH by lia. cbn [bind]. f_equal. unfold g. rewrite Nat2Z.id.
    replace (firstn (S k) l) with (firstn k l ++ [nth k l 0]); [rewrite rev_app_distr; reflexivity|].
    clear -Hk. revert l Hk. induction k as [|k IH]; intros [|x l] Hk; cbn [length] in Hk; try lia; [reflexivity|]. cbn [firstn app nth]. f_equal. apply IH. lia.
Qed.
Lemma backward_ok : backward_loop m (size c) = Ok (rev l).
Proof. unfold backward_loop. rewrite m_size. unfold slen. rewrite Nat2Z.id. rewrite walk_back_ok by lia. rewrite firstn_all. reflexivity. Qed.

Lemma prefix_iff x : prefix x l <-> slen x <= slen l /\ stake (slen x) l = x.
Proof.
  split.
  - intros (r & E). pose proof (slen0 r). rewrite E, slen_app'. split; [lia|]. unfold stake, slen. rewrite Nat2Z.id, firstn_app, Nat.sub_diag, firstn_all. cbn [firstn]. apply app_nil_r.
  - intros (H & E). exists (sdrop (slen x) l). rewrite <- E at 1. symmetry. apply take_drop.
Qed.
Lemma suffix_iff x : suffix x l <-> slen x <= slen l /\ sdrop (slen l - slen x) l = x.
Proof.
  split.
  - intros (r & E). pose proof (slen0 r). rewrite E, slen_app'. split; [lia|]. replace (slen r + slen x - slen x) with (slen r) by lia.
    unfold sdrop, slen. rewrite Nat2Z.id, skipn_app, Nat.sub_diag, skipn_all. reflexivity.
  - intros (H & E). exists (stake (slen l - slen x) l). rewrite <- E at 2. symmetry. apply take_drop.
Qed.
Lemma starts_ok xm x : like xm x -> exists b, starts_with m (size c) xm (slen x) = Ok b /\ (b = true <-> prefix x l).
Proof.
  intros X. pose proof (prefix_iff x) as BI. pose proof (slen0 l). pose proof (slen0 x). unfold starts_with. rewrite m_size. destruct (Z.eqb_spec (Z.min (slen x) (slen l)) (slen x)).
  - rewrite (traits_compare_like m xm l x) by (try apply m_like; try exact X; lia). cbn [bind]. eexists. split; [reflexivity|]. rewrite BI, Z.eqb_eq. change (sdrop 0 l) with l. rewrite cmp_chars_eq.
    + rewrite (stake_all x) by lia. split; [intros ->; split; [lia|reflexivity]|tauto].
    + rewrite !slen_stake by lia. reflexivity.
  - exists false. split; [reflexivity|]. split; [discriminate|]. rewrite BI. intros (? & _). lia.
Qed.
Lemma ends_ok xm x : like xm x -> exists b, ends_with m (size c) xm (slen x) = Ok b /\ (b = true <-> suffix x l).
Proof.
  intros X. pose proof (suffix_iff x) as BI. pose proof (slen0 l). pose proof (slen0 x). unfold ends_with. rewrite m_size. destruct (Z.leb_spec (slen x) (slen l)).
  - rewrite (traits_compare_like m xm l x) by (try apply m_like; try exact X; lia). cbn [bind]. eexists. split; [reflexivity|]. rewrite BI, Z.eqb_eq. rewrite cmp_chars_eq.
    + rewrite (stake_all x) by lia. rewrite stake_all by (rewrite slen_sdrop; lia). split; [intros ->; split; [lia|reflexivity]|tauto].
    + rewrite !slen_stake by (rewrite ?slen_sdrop; lia). reflexivity.
  - exists false. split; [reflexivity|]. split; [discriminate|]. rewrite BI. intros (? & _). lia.
Qed.
Lemma starts_char_ok x : exists b, starts_with_char m (size c) x = Ok b /\ (b = true <-> prefix [x] l).
Proof.
  unfold starts_with_char. rewrite m_size. destruct (Z.eqb_spec (slen l) 0) as [E|N].
  - exists false. split; [reflexivity|]. split; [discriminate|]. intros (r & X). rewrite X in E. rewrite slen_app' in E. change (slen [x]) with 1 in E. pose proof (slen0 r). lia.
  - pose proof (slen0 l). rewrite (load_like m l) by (try apply m_like; lia). cbn [bind]. eexists. split; [reflexivity|]. rewrite Z.eqb_eq. destruct l as [|y r] eqn:E; [exfalso; apply N; reflexivity|].
    rewrite g_cons0. split; [intros ->; exists r; reflexivity|intros (r' & X); cbn in X; congruence].
Qed.
Lemma ends_char_ok x : exists b, ends_with_char m (size c) x = Ok b /\ (b = true <-> suffix [x] l).
Proof.
  unfold ends_with_char. rewrite m_size. destruct (Z.eqb_spec (slen l) 0) as [E|N].
  - exists false. split; [reflexivity|]. split; [discriminate|]. intros (r & X). rewrite X in E. rewrite slen_app' in E. change (slen [x]) with 1 in E. pose proof (slen0 r). lia.
  - pose proof (slen0 l). rewrite (load_like m l) by (try apply m_like; lia). cbn [bind]. eexists. split; [reflexivity|]. rewrite Z.eqb_eq.
    destruct (exists_last (l := l)) as (r & y & E); [intros E; apply N; rewrite E; reflexivity|].
    assert (G : g l (slen l - 1) = y). { rewrite E, g_app2; rewrite slen_app'; change (slen [y]) with 1; [|lia]. replace (slen r + 1 - 1 - slen r) with 0 by lia. reflexivity. }
    rewrite G. split; [intros ->; exists r; exact E|]. intros (r' & X). rewrite E in X. apply app_inj_tail in X. apply X.
Qed.
Lemma starts_cstr_ok memory x : c_string memory x -> exists b, starts_with_cstr m (size c) memory = Ok b /\ (b = true <-> prefix x l).
Proof. intros H. destruct (length_cstring _ _ H) as (E & K). unfold starts_with_cstr. rewrite E. cbn [bind]. apply starts_ok. exact K. Qed.
Lemma ends_cstr_ok memory x : c_string memory x -> exists b, ends_with_cstr m (size c) memory = Ok b /\ (b = true <-> suffix x l).
Proof. intros H. destruct (length_cstring _ _ H) as (E & K). unfold ends_with_cstr. rewrite E. cbn [bind]. apply ends_ok. exact K. Qed.

Lemma std_cmp_ok x : std_cmp m (size c) x = Ok (lex l x).
Proof.
  unfold std_cmp. rewrite m_size. pose proof (slen0 l). rewrite (compare_at_like m (list_mem x) l x) by (try apply m_like; try apply like_list; lia). cbn [bind].
  destruct (Z.leb_spec 0 (slen l)); [|lia]. f_equal. f_equal. unfold piece. change (sdrop 0 l) with l. apply stake_all. lia.
Qed.
Lemma std_cmp_rev x : compare (list_mem x) (slen x) m (size c) = Ok (lex x l).
Proof. rewrite m_size. apply compare_like; [apply like_list|apply m_like]. Qed.

Lemma lex_ops x y r : orders x y r ->
  ((r =? 0) = true <-> x = y) /\ ((r <? 0) = true <-> lex_lt x y) /\ ((0 <? r) = true <-> lex_lt y x) /\
  (negb (r =? 0) = true <-> x <> y) /\ (negb (0 <? r) = true <-> lex_lt x y \/ x = y) /\ (negb (r <? 0) = true <-> lex_lt y x \/ x = y) /\
  match of_cmp r with Lt => lex_lt x y | Eq => x = y | Gt => lex_lt y x end.
Proof.
  intros (A & B & C). unfold of_cmp.
  destruct (Z.eqb_spec r 0), (Z.ltb_spec r 0), (Z.ltb_spec 0 r); try lia; cbn [negb]; repeat split; intros; try discriminate; try tauto; try lia;
    repeat match goal with H : _ \/ _ |- _ => destruct H end; exfalso; intuition lia.
Qed.
Lemma str_std_ops x :
  (exists r, str_std_eq m (size c) x = Ok r /\ (r = true <-> l = x)) /\
  (exists r, str_std_ne m (size c) x = Ok r /\ (r = true <-> l <> x)) /\
  (exists r, str_std_lt m (size c) x = Ok r /\ (r = true <-> lex_lt l x)) /\
  (exists r, str_std_gt m (size c) x = Ok r /\ (r = true <-> lex_lt x l)) /\
  (exists r, str_std_le m (size c) x = Ok r /\ (r = true <-> lex_lt l x \/ l = x)) /\
  (exists r, str_std_ge m (size c) x = Ok r /\ (r = true <-> lex_lt x l \/ l = x)) /\
  (exists r, str_std_ship m (size c) x = Ok r /\ match r with Lt => lex_lt l x | Eq => l = x | Gt => lex_lt x l end).
Proof.
  destruct (lex_ops l x _ (lex_orders l x)) as (A & B & C & D & E & F & G). unfold str_std_le, str_std_ge, str_std_ne, str_std_eq, str_std_lt, str_std_gt, str_std_ship.
  rewrite std_cmp_ok. cbn [bind]. repeat (split; [eexists; split; [reflexivity|assumption]|]). eexists; split; [reflexivity|assumption].
Qed.
Lemma std_str_ops x :
  (exists r, std_str_eq x m (size c) = Ok r /\ (r = true <-> x = l)) /\
  (exists r, std_str_ne x m (size c) = Ok r /\ (r = true <-> x <> l)) /\
  (exists r, std_str_lt x m (size c) = Ok r /\ (r = true <-> lex_lt x l)) /\
  (exists r, std_str_gt x m (size c) = Ok r /\ (r = true <-> lex_lt l x)) /\
  (exists r, std_str_le x m (size c) = Ok r /\ (r = true <-> lex_lt x l \/ x = l)) /\
  (exists r, std_str_ge x m (size c) = Ok r /\ (r = true <-> lex_lt l x \/ x = l)) /\
  (exists r, std_str_ship x m (size c) = Ok r /\ match r with Lt => lex_lt x l | Eq => x = l | Gt => lex_lt l x end).
Proof.
  destruct (lex_ops l x _ (lex_orders l x)) as (A & B & C & D & E & F & _). destruct (lex_ops x l _ (lex_orders x l)) as (_ & _ & _ & _ & _ & _ & G).
  unfold std_str_le, std_str_ge, std_str_ne, std_str_eq, std_str_lt, std_str_gt, std_str_ship, str_std_eq, str_std_lt, str_std_gt.
  rewrite std_cmp_ok, std_cmp_rev. cbn [bind]. assert (S : x = l <-> l = x) by (split; congruence).
  repeat (split; [eexists; split; [reflexivity|rewrite ?S; assumption]|]). eexists; split; [reflexivity|assumption].
Qed.

Lemma view_ok : view_chars m (size c) = Ok l.
Proof.
  unfold view_chars. rewrite m_size. pose proof (slen0 l). rewrite (loads_like m l m_like) by lia. change (sdrop 0 l) with l. rewrite stake_all by lia. reflexivity.
Qed.
Lemma c_length_ok x : up_to_zero l x -> forall k fuel i, i + Z.of_nat k = slen x -> 0 <= i -> (k < fuel)%nat -> c_length m fuel i = Ok (slen x).
Proof.
  intros (N & E). assert (G : g (l ++ [0]) (slen x) = 0 /\ slen x <= slen l).
  { pose proof (slen0 x). destruct E as [->|(t & ->)]; split; try lia.
    - rewrite g_app2 by lia. rewrite Z.sub_diag. reflexivity.
    - rewrite <- app_assoc, g_app2 by lia. rewrite Z.sub_diag. reflexivity.
    - rewrite slen_app'. pose proof (slen0 (0 :: t)). lia. }
  destruct G as (G & GL). assert (NZ : forall i, 0 <= i < slen x -> g (l ++ [0]) i <> 0).
  { intros i Hi X. apply N. rewrite <- X. destruct E as [E|(t & E)]; rewrite E.
    - rewrite g_app1 by lia. unfold g. apply nth_In. unfold slen in Hi. lia.
    - rewrite <- app_assoc, g_app1 by lia. unfold g. apply nth_In. unfold slen in Hi. lia. }
  induction k as [|k IH]; intros fuel i Hi H0 Hf; (destruct fuel as [|fuel]; [lia|]); cbn [c_length];
    rewrite (load_like m (l ++ [0])) by (try apply m_like0; rewrite slen_app'; change (slen [0]) with 1; lia); cbn [bind].
  - replace i with (slen x) by lia. rewrite G. reflexivity.
  - destruct (Z.eqb_spec (g (l ++ [0]) i) 0) as [Z0|]; [exfalso; apply (NZ i); [lia|exact Z0]|]. apply IH; lia.
Qed.
Lemma std_to_string_ok x : up_to_zero l x -> std_to_string m (size c) = Ok x.
Proof.
  intros H. unfold std_to_string. rewrite m_size.
  assert (B : exists t, l = x ++ t) by (destruct (proj2 H) as [->|(t & ->)]; [exists []; rewrite app_nil_r; reflexivity|eexists; reflexivity]).
  destruct B as (t & E). pose proof (slen0 t). pose proof (slen0 x). assert (LE : slen l = slen x + slen t) by (rewrite E; apply slen_app').
  rewrite (c_length_ok x H (Z.to_nat (slen x))) by lia. cbn [bind]. rewrite (loads_like m l m_like) by lia. change (sdrop 0 l) with l. rewrite Z2Nat.id by lia.
  f_equal. apply (prefix_iff x). exists t. exact E.
Qed.

(** ** operator<< *)
Lemma int32_small n : 0 <= n < 2 ^ 31 -> int32 n = n.
Proof. intros H. unfold int32. rewrite Z.mod_small by lia. destruct (Z.ltb_spec n (2 ^ 31)); lia. Qed.
Lemma o_loads k : 0 <= k <= slen l -> loads m 0 (Z.to_nat k) = Ok (stake k l).
Proof. intros H. rewrite (loads_like m l m_like) by lia. rewrite Z2Nat.id by lia. reflexivity. Qed.
Lemma write_ok os n : 0 <= o_room os -> n <= slen l -> ostream_write os m n =
  Ok (let k := Z.max 0 (Z.min n (o_room os)) in o_with os (o_text os ++ stake k l) (o_room os - k) (o_width os) (o_bad os || negb (k =? n)) (o_fail os)).
Proof. intros Hr Hn. pose proof (slen0 l). unfold ostream_write. cbv zeta. rewrite o_loads by lia. reflexivity. Qed.
Lemma insertion_ok os : slen l < 2 ^ 31 -> o_good os = true -> Z.max (slen l) (o_width os) <= o_room os ->
  insertion os m (size c) = Ok (o_with os (o_text os ++ padded (o_width os) (o_left os) (o_fill os) l) (o_room os - Z.max (slen l) (o_width os)) 0 false false).
Proof.
  intros S G Hr. pose proof (slen0 l). unfold insertion. rewrite m_size, int32_small by lia. unfold ostream_insert. rewrite G.
  unfold o_good in G. apply andb_prop in G. destruct G as (G1 & G2). apply negb_true_iff in G1, G2. unfold padded.
  assert (SA : stake (slen l) l = l) by (apply stake_all; lia).
  destruct (Z.ltb_spec (slen l) (o_width os)) as [LT|GE].
  - destruct (o_left os) eqn:EL.
    + unfold o_good at 1. rewrite G1, G2. cbn [negb andb]. rewrite write_ok by lia. cbn [bind]. cbv zeta. replace (Z.max 0 (Z.min (slen l) (o_room os))) with (slen l) by lia.
      rewrite SA, Z.eqb_refl, G1, G2. unfold o_with. cbn. unfold ostream_fill, o_with. cbn. replace (Z.max 0 (Z.min (o_width os - slen l) (o_room os - slen l))) with (o_width os - slen l) by lia.
      rewrite Z.ltb_irrefl. rewrite <- app_assoc. rewrite EL. f_equal. f_equal. lia.
    + unfold ostream_fill at 1 2 3. cbn -[Z.max Z.min Z.ltb ostream_write srep slen padded]. replace (Z.max 0 (Z.min (o_width os - slen l) (o_room os))) with (o_width os - slen l) by lia. rewrite Z.ltb_irrefl.
      unfold o_good. cbn -[Z.max Z.min Z.ltb ostream_write srep slen]. rewrite G1, G2. cbn [orb negb andb]. rewrite write_ok by (cbn; lia). cbn [bind]. cbv zeta. cbn -[Z.max Z.min Z.ltb srep slen stake].
      replace (Z.max 0 (Z.min (slen l) (o_room os - (o_width os - slen l)))) with (slen l) by lia. rewrite SA, Z.eqb_refl. cbn. unfold o_with. cbn. rewrite EL, app_assoc. f_equal. f_equal. lia.
  - rewrite write_ok by lia. cbn [bind]. cbv zeta. replace (Z.max 0 (Z.min (slen l) (o_room os))) with (slen l) by lia. rewrite SA, Z.eqb_refl, G1, G2. unfold o_with. cbn.
    replace (srep (o_width os - slen l) (o_fill os)) with (@nil Z) by (unfold srep; replace (Z.to_nat (o_width os - slen l)) with O by lia; reflexivity).
    rewrite app_nil_r. replace (Z.max (slen l) (o_width os)) with (slen l) by lia. destruct (o_left os) eqn:EL; reflexivity.
Qed.
Lemma insertion_bad os : o_good os = false -> insertion os m (size c) = Ok (o_with os (o_text os) (o_room os) (o_width os) (o_bad os) true).
Proof. intros G. unfold insertion, ostream_insert. rewrite G. reflexivity. Qed.
Lemma int32_neg n : 2 ^ 31 <= n < 2 ^ 32 -> int32 n = n - 2 ^ 32.
Proof. intros H. unfold int32. rewrite Z.mod_small by lia. destruct (Z.ltb_spec n (2 ^ 31)); lia. Qed.
Lemma int32_low n : 2 ^ 32 <= n < 2 ^ 32 + 2 ^ 31 -> int32 n = n - 2 ^ 32.
Proof.
  intros H. unfold int32. assert (E : n mod 2 ^ 32 = n - 2 ^ 32) by (symmetry; apply (Z.mod_unique _ _ 1); lia).
  rewrite E. destruct (Z.ltb_spec (n - 2 ^ 32) (2 ^ 31)); lia.
Qed.
(** No character of the string is written. *)
Lemma insertion_neg os : 2 ^ 31 <= slen l < 2 ^ 32 -> o_good os = true -> 0 <= o_width os -> 0 <= o_room os ->
  exists os', insertion os m (size c) = Ok os' /\ o_bad os' = true /\ exists k, o_text os' = o_text os ++ srep k (o_fill os).
Proof.
  intros S G Hw Hr. unfold insertion. rewrite m_size, int32_neg by exact S. unfold ostream_insert. rewrite G.
  unfold o_good in G. apply andb_prop in G. destruct G as (G1 & G2). apply negb_true_iff in G1, G2. destruct (Z.ltb_spec (slen l - 2 ^ 32) (o_width os)); [|lia].
  assert (WN : forall o, 0 <= o_room o -> exists o', ostream_write o m (slen l - 2 ^ 32) = Ok o' /\ o_bad o' = true /\ o_text o' = o_text o /\ o_fail o' = o_fail o).
  { intros o Ho. rewrite write_ok by lia. cbv zeta. replace (Z.max 0 (Z.min (slen l - 2 ^ 32) (o_room o))) with 0 by lia. eexists. split; [reflexivity|]. cbn -[Z.eqb Z.pow].
    destruct (Z.eqb_spec 0 (slen l - 2 ^ 32)); [lia|]. cbn [negb]. rewrite orb_true_r, app_nil_r. repeat split. }
  destruct (o_left os) eqn:EL.
  - unfold o_good at 1. rewrite G1, G2. cbn [negb andb]. destruct (WN os Hr) as (o' & E & B & T & F). rewrite E. cbn [bind]. unfold o_good. rewrite B. cbn [negb andb].
    eexists. split; [reflexivity|]. cbn. split; [exact B|]. exists 0. rewrite T. cbn. rewrite app_nil_r. reflexivity.
  - set (n := o_width os - (slen l - 2 ^ 32)). unfold o_good. unfold ostream_fill at 1 2. cbn -[Z.pow Z.max Z.min Z.ltb ostream_write ostream_fill srep slen]. rewrite G1, G2. cbn [orb negb andb].
    set (k := Z.max 0 (Z.min n (o_room os))). destruct (Z.ltb_spec k n) as [LT|GE]; cbn [negb andb bind].
    + eexists. split; [reflexivity|]. cbn -[Z.pow Z.max Z.min Z.ltb srep slen]. fold k. split; [rewrite G1; destruct (Z.ltb_spec k n); [reflexivity|lia]|]. exists k. reflexivity.
    + destruct (WN (ostream_fill os n)) as (o' & E & B & T & F); [cbn -[Z.pow Z.max Z.min Z.ltb srep slen]; lia|]. rewrite E. cbn [bind].
      eexists. split; [reflexivity|]. cbn -[Z.pow Z.max Z.min Z.ltb srep slen]. split; [exact B|]. exists k. rewrite T. reflexivity.
Qed.
(** The stream is good, and only the first characters are written. *)
Lemma insertion_low os : 2 ^ 32 <= slen l < 2 ^ 32 + 2 ^ 31 -> o_good os = true -> o_width os = 0 -> slen l <= o_room os ->
  exists os', insertion os m (size c) = Ok os' /\ o_good os' = true /\ o_text os' = o_text os ++ stake (slen l - 2 ^ 32) l.
Proof.
  intros S G Hw Hr. unfold insertion. rewrite m_size, int32_low by exact S. unfold ostream_insert. rewrite G. rewrite Hw.
  unfold o_good in G. apply andb_prop in G. destruct G as (G1 & G2). apply negb_true_iff in G1, G2. destruct (Z.ltb_spec (slen l - 2 ^ 32) 0); [lia|].
  rewrite write_ok by lia. cbn [bind]. cbv zeta. replace (Z.max 0 (Z.min (slen l - 2 ^ 32) (o_room os))) with (slen l - 2 ^ 32) by lia. rewrite Z.eqb_refl.
  eexists. split; [reflexivity|]. unfold o_good. cbn -[stake Z.sub]. rewrite G1, G2. split; reflexivity.
Qed.
End Reading.
End Wide.
