(** Splitting at a text; the options parse_args works with; parsers used again. *)
Require Import ZArith List Bool Lia Arith.
From Verif Require Import OptModel OptModel2 OptSpec OptSpec2 OptSpec3 OptProofs OptProofs2 OptProofs3 OptProofs4 OptProofs5.
Import ListNotations.
Open Scope Z_scope.

(** ** Splitting *)
Lemma find_at_first d : forall s i j, find_at d s i = Some j -> exists x r, first_at d s x r /\ j = (i + length x)%nat.
Proof.
  induction s as [|c s IH]; intros i j; cbn [find_at]; destruct (prefixb d _) eqn:P.
  - intros E. injection E as <-. apply prefixb_ok in P. destruct P as (r & P). exists [], r. split; [|cbn; lia]. split; [exact P|]. cbn. lia.
  - discriminate.
  - intros E. injection E as <-. apply prefixb_ok in P. destruct P as (r & P). exists [], r. split; [|cbn; lia]. split; [exact P|]. cbn. lia.
  - intros E. destruct (IH _ _ E) as (x & r & (-> & M) & ->). exists (c :: x), r. split; [|cbn [length]; lia]. split; [reflexivity|]. intros [|c' x'] r' Q.
    + exfalso. cbn [app] in Q. assert (prefixb d (c :: x ++ d ++ r) = true) by (apply prefixb_ok; exists r'; exact Q). congruence.
    + cbn [app] in Q. injection Q as _ Q. specialize (M _ _ Q). cbn [length]. lia.
Qed.
Lemma find_at_never d : forall s i, find_at d s i = None -> forall x r, s <> x ++ d ++ r.
Proof.
  assert (A : forall s r, prefixb d s = false -> s <> d ++ r).
  { intros s r P E. assert (prefixb d s = true) by (apply prefixb_ok; eauto). congruence. }
  induction s as [|c s IH]; intros i; cbn [find_at]; destruct (prefixb d _) eqn:P; try discriminate; intros E x r Q.
  - destruct x; [exact (A _ _ P Q)|discriminate].
  - destruct x; [exact (A _ _ P Q)|]. injection Q as _ Q. exact (IH _ E _ _ Q).
Qed.
Lemma split_text_loop d skip : d <> [] -> forall fuel s k toks, (k <= length s)%nat -> (length s - k < fuel)%nat ->
  exists l, chunks d (skipn k s) l /\ split_loop fuel s d skip k toks = Ok (toks ++ map trim_string (kept skip l)).
Proof.
  intros ND. assert (LD : (0 < length d)%nat) by (destruct d; [congruence|cbn; lia]).
  induction fuel as [|fuel IH]; intros s k toks Hk F; [lia|]. cbn [split_loop]. unfold find.
  destruct (Nat.leb_spec k (length s)); [|lia]. set (r := skipn k s). assert (LR : length r = (length s - k)%nat) by apply skipn_length.
  assert (SUB : forall x n, n = length x -> (exists y, r = x ++ y) -> substr k n s = x).
  { intros x n -> (y & E). unfold substr. fold r. rewrite E, firstn_app, Nat.sub_diag, firstn_all. cbn [firstn]. apply app_nil_r. }
  assert (TK : forall x, (if negb skip || negb (length x =? 0)%nat then toks ++ [trim_string x] else toks) = toks ++ map trim_string (kept skip [x])).
  { intros x. unfold kept. destruct skip; cbn [negb orb filter]; [|reflexivity]. destruct x; cbn [length Nat.eqb negb nullb map]; [symmetry; apply app_nil_r|reflexivity]. }
  destruct (find_at d r k) as [j|] eqn:E.
  - destruct (find_at_first _ _ _ _ E) as (x & y & (E1 & M) & ->). assert (LL : (length s - k = length x + (length d + length y))%nat) by (rewrite <- LR, E1, !app_length; reflexivity).
    replace (k + length x - k)%nat with (length x) by lia. rewrite (SUB x) by (auto; rewrite E1; eauto). rewrite TK.
    destruct (Nat.eqb_spec (k + length x) (length s)); [lia|].
    destruct (IH s (k + length x + length d)%nat (toks ++ map trim_string (kept skip [x])) ltac:(lia) ltac:(lia)) as (l & C & R). rewrite R. exists (x :: l). split.
    + apply ch_more with (r := y); [split; assumption|].
      replace (k + length x + length d)%nat with ((length x + length d) + k)%nat in C by lia. rewrite <- skipn_skipn' in C. fold r in C. rewrite E1, skipn_app, skipn_all2 in C by lia. cbn [app] in C.
      replace (length x + length d - length x)%nat with (length d) in C by lia. rewrite skipn_app, Nat.sub_diag, skipn_all in C. exact C.
    + f_equal. rewrite <- app_assoc, <- map_app. f_equal. f_equal. unfold kept. destruct skip; [|reflexivity]. cbn [filter]. destruct (negb (nullb x)); reflexivity.
  - pose proof (find_at_never _ _ _ E) as NV. rewrite Nat.eqb_refl. rewrite (SUB r) by (auto; exists []; rewrite app_nil_r; reflexivity). rewrite <- LR, TK.
    exists [r]. split; [|reflexivity]. apply ch_last. exact NV.
Qed.
Lemma chunks_unique d s l : chunks d s l -> forall l', chunks d s l' -> l = l'.
Proof.
  induction 1 as [s N|s x r l (E & M) _ IH]; intros l' H'; inversion H' as [s' N'|s' x' r' l2 (E' & M') C']; subst.
  - reflexivity.
  - exfalso. eapply N. reflexivity.
  - exfalso. eapply N'. reflexivity.
  - assert (L : length x = length x').
    { pose proof (M _ _ E'). pose proof (M' _ _ eq_refl). lia. }
    assert (x = x' /\ r = r') as (-> & ->).
    { apply (f_equal (firstn (length x))) in E' as A. rewrite L in A at 2. rewrite !firstn_app, !firstn_all, !Nat.sub_diag, !firstn_O, !app_nil_r in A. subst x'.
      apply app_inv_head in E'. apply app_inv_head in E'. auto. }
    f_equal. apply IH. exact C'.
Qed.
Lemma chunks_joined d s l : chunks d s l -> joined d l = s.
Proof. induction 1 as [s N|s x r l (-> & _) C IH]; [reflexivity|]. cbn [joined]. destruct l as [|y l]; [inversion C|]. rewrite IH. reflexivity. Qed.
Lemma chunks_inside d s l : chunks d s l -> d <> [] -> Forall (fun x => forall a b, x <> a ++ d ++ b) l.
Proof.
  intros C ND. induction C as [s N|s x r l (-> & M) C IH]; constructor; auto.
  intros a b ->. specialize (M a (b ++ d ++ r) ltac:(rewrite <- !app_assoc; reflexivity)). rewrite !app_length in M. destruct d; [congruence|]. cbn [length] in M. lia.
Qed.
Lemma split_empty_never skip : forall fuel s k toks, (k < length s)%nat -> split_loop fuel s [] skip k toks = Fault NoFuel.
Proof.
  induction fuel as [|fuel IH]; intros s k toks L; [reflexivity|]. cbn [split_loop]. unfold find. destruct (Nat.leb_spec k (length s)); [|lia].
  assert (F : find_at [] (skipn k s) k = Some k) by (destruct (skipn k s); reflexivity). rewrite F. destruct (Nat.eqb_spec k (length s)); [lia|]. cbn [length]. rewrite Nat.add_0_r. apply IH. exact L.
Qed.

(** ** The options of a parser in parse_args *)
Lemma long_type p n : length (long_prefix p) = 2%nat -> (extract_option_type p n = LongOpt <-> long_name p n).
Proof.
  intros L. unfold extract_option_type, long_name. split.
  - destruct ((2 <? length n)%nat && seqb (substr 0 2 n) (long_prefix p)) eqn:E; [|destruct (nth 0 n 0 =? prefix p); discriminate]. intros _. apply andb_prop in E. destruct E as (E1 & E2). apply seqb_eq in E2. apply Nat.ltb_lt in E1.
    rewrite <- E2. destruct n as [|a [|b [|c r]]]; cbn [length] in E1; try lia. exists c, r. reflexivity.
  - intros (c & r & ->). destruct (long_prefix p) as [|x [|y [|z q]]]; try discriminate L. cbn [app length Nat.ltb Nat.leb andb substr skipn firstn seqb]. unfold substr. cbn [skipn firstn seqb]. rewrite !Z.eqb_refl. reflexivity.
Qed.
Lemma long_dec p n : length (long_prefix p) = 2%nat -> {long_name p n} + {~ long_name p n}.
Proof. intros L. destruct (extract_option_type p n) eqn:E; [right|left|right]; try (apply long_type; assumption); intros H; apply (long_type p n L) in H; congruence. Qed.
Lemma first_long_ok p : length (long_prefix p) = 2%nat -> forall ns, (Forall (fun n => ~ long_name p n) ns /\ first_long p ns = []) \/
  exists l1 c r l2, ns = l1 ++ (long_prefix p ++ c :: r) :: l2 /\ Forall (fun n => ~ long_name p n) l1 /\ first_long p ns = c :: r.
Proof.
  intros L. induction ns as [|n ns IH]; [left; split; [constructor|reflexivity]|]. cbn [first_long].
  assert (NL : extract_option_type p n <> LongOpt -> (Forall (fun n => ~ long_name p n) (n :: ns) /\ first_long p ns = []) \/
    exists l1 c r l2, n :: ns = l1 ++ (long_prefix p ++ c :: r) :: l2 /\ Forall (fun n => ~ long_name p n) l1 /\ first_long p ns = c :: r).
  { intros NE. assert (NN : ~ long_name p n) by (intros X; apply NE; apply long_type; assumption). destruct IH as [(F & E)|(l1 & c & r & l2 & -> & F & E)]; [left; split; [constructor; assumption|exact E]|].
    right. exists (n :: l1), c, r, l2. split; [reflexivity|]. split; [constructor; assumption|exact E]. }
  destruct (extract_option_type p n) eqn:E; try (apply NL; discriminate). right. apply long_type in E; [|exact L]. destruct E as (c & r & ->). exists [], c, r, ns. split; [reflexivity|]. split; [constructor|].
  rewrite <- L. rewrite skipn_app, skipn_all, Nat.sub_diag. reflexivity.
Qed.
Lemma validate_settled p o : length (long_prefix p) = 2%nat -> snd (validate p o) = true -> settled p o (fst (validate p o)) /\ complete o.
Proof.
  intros L. unfold validate. cbn [fst snd]. rewrite negb_true_iff, !orb_false_iff. intros (((A & B) & C) & D). split.
  - unfold settled. cbn. repeat (split; [reflexivity|]). destruct (nullb (dest o)) eqn:N.
    + assert (dest o = []) as DE by (destruct (dest o); [reflexivity|discriminate]). destruct (first_long_ok p L (names o)) as [(_ & E)|(l1 & c & r & l2 & E & F & G)]; [rewrite E in C; discriminate|].
      rewrite G. split; [discriminate|]. right. split; [exact DE|]. exists l1, l2. split; [exact E|exact F].
    + split; [|left; reflexivity]. destruct (dest o); discriminate.
  - split; [destruct (names o); discriminate|]. split; [destruct (act o); discriminate|]. destruct (choices o); [left; reflexivity|right]. destruct (typ o); cbn in D; try discriminate. reflexivity.
Qed.
Lemma validate_complete p o o' : length (long_prefix p) = 2%nat -> settled p o o' -> complete o -> validate p o = (o', true).
Proof.
  intros L (E1 & E2 & E3 & E4 & E5 & E6 & DN & E7) (C1 & C2 & C3). unfold validate.
  assert (D : (if nullb (dest o) then first_long p (names o) else dest o) = dest o').
  { destruct E7 as [E7|(DE & l1 & l2 & N & F)].
    - rewrite <- E7. destruct (dest o'); [congruence|reflexivity].
    - rewrite DE. cbn [nullb]. rewrite N. clear - L F DN. induction l1 as [|n l1 IH]; cbn [app first_long].
      + destruct (dest o') as [|c r] eqn:DO; [congruence|]. assert (T : extract_option_type p (long_prefix p ++ c :: r) = LongOpt) by (apply long_type; [exact L|]; exists c, r; reflexivity). rewrite T. rewrite <- L. rewrite skipn_app, skipn_all, Nat.sub_diag. reflexivity.
      + inversion F as [|? ? X Y]; subst. destruct (extract_option_type p n) eqn:T; auto. apply long_type in T; [contradiction|exact L]. }
  rewrite D. f_equal.
  - destruct o'; cbn in *. congruence.
  - rewrite negb_true_iff, !orb_false_iff. repeat split.
    + destruct (names o); [congruence|reflexivity].
    + destruct (act o); cbn; congruence.
    + destruct (dest o'); [congruence|reflexivity].
    + destruct C3 as [C3|C3]; rewrite C3; [destruct (is_choice (typ o)); reflexivity|reflexivity].
Qed.
Lemma auto_types p a : length (long_prefix p) = 2%nat -> In a automatic -> extract_option_type p [prefix p; fst a] = ShortOpt /\ extract_option_type p (long_prefix p ++ snd a) = LongOpt.
Proof.
  intros L I. split; [unfold extract_option_type; cbn; rewrite Z.eqb_refl; reflexivity|]. apply long_type; [exact L|]. destruct I as [<-|[<-|[<-|[]]]]; eexists _, _; reflexivity.
Qed.
(** What add_flag does: nothing if one of the names is taken, else it adds the option. *)
Lemma flag_exact p a : typed p -> In a automatic ->
  if contains (short_map p) [prefix p; fst a] || contains (long_map p) (long_prefix p ++ snd a) then add_flag p (fst a) (snd a) = Ok p
  else exists q, add_flag p (fst a) (snd a) = Ok q /\ options q = options p ++ [auto_option p a] /\ prefix q = prefix p /\ long_prefix q = long_prefix p /\ typed q /\
         (forall k, kept_in q k = if member k (auto_names p a) then Some (length (options p)) else kept_in p k) /\
         argc q = argc p /\ program q = program p /\ version q = version p /\ invalid q = invalid p /\ conflict q = conflict p /\
         short_map q = put [prefix p; fst a] (length (options p)) (short_map p) /\ long_map q = put (long_prefix p ++ snd a) (length (options p)) (long_map p).
Proof.
  intros T I. pose proof T as (TL & TS & L). destruct (auto_types p a L I) as (T1 & T2). unfold add_flag. destruct (contains (short_map p) [prefix p; fst a]) eqn:C1; [reflexivity|]. destruct (contains (long_map p) (long_prefix p ++ snd a)) eqn:C2; [reflexivity|]. cbn [orb negb andb].
  destruct (add_option p [[prefix p; fst a]; long_prefix p ++ snd a]) as (q1, e) eqn:A. pose proof A as A0. unfold add_option in A. cbn [register] in A.
  set (p0 := with_options p (options p ++ [fresh [[prefix p; fst a]; long_prefix p ++ snd a]])) in *.
  change (extract_option_type p0 [prefix p; fst a]) with (extract_option_type p [prefix p; fst a]) in A. rewrite T1 in A. change (short_map p0) with (short_map p) in A. rewrite C1, andb_false_r in A.
  set (p1 := with_short p0 (put [prefix p; fst a] (length (options p0) - 1)%nat (short_map p))) in *. change (extract_option_type p1 (long_prefix p ++ snd a)) with (extract_option_type p (long_prefix p ++ snd a)) in A. rewrite T2 in A.
  change (long_map p1) with (long_map p) in A. rewrite C2, andb_false_r in A. assert (Q : (length (options p0) - 1)%nat = length (options p)) by (cbn [p0 options with_options]; rewrite app_length; cbn [length]; lia).
  change (options p1) with (options p0) in A. rewrite Q in A. injection A as <- <-. eexists. split; [reflexivity|].
  pose proof (add_typed _ _ _ _ A0 T) as (T' & O' & _). destruct (register_ok _ _ _ _ A0 T) as (_ & _ & done & rest & DR & K & _ & _ & ->). rewrite app_nil_r in DR. subst done. fold p0 in K. rewrite Q in K.
  split.
  { cbn [options configure with_options with_long with_short p1 p0]. rewrite !app_length. cbn [length]. replace (length (options p) + 1 - 1)%nat with (length (options p)) by lia.
    assert (G : forall (l : list option_) f, alter (length l) (fun o => configured o (flag (snd a))) (l ++ [f]) = l ++ [configured f (flag (snd a))]) by (intros l f; induction l as [|y l IH]; [reflexivity|cbn; rewrite IH; reflexivity]).
    rewrite G. reflexivity. }
  split; [reflexivity|]. split; [reflexivity|]. split; [exact T'|]. split; [exact K|]. repeat split. rewrite <- Q. reflexivity.
Qed.
Definition free (p : parser) (a : Z * list Z) : bool := negb (contains (short_map p) [prefix p; fst a] || contains (long_map p) (long_prefix p ++ snd a)).
Lemma contains_put {A} k k' (x : A) m : contains (put k x m) k' = seqb k' k || contains m k'.
Proof. unfold contains. rewrite lookup_put. destruct (seqb k' k); reflexivity. Qed.
Lemma auto_distinct p a b : In a automatic -> In b automatic -> a <> b -> seqb [prefix p; fst a] [prefix p; fst b] = false /\ seqb (long_prefix p ++ snd a) (long_prefix p ++ snd b) = false.
Proof.
  intros IA IB NE. split; apply seqb_neq; intros E.
  - injection E as E. destruct IA as [<-|[<-|[<-|[]]]]; destruct IB as [<-|[<-|[<-|[]]]]; cbn in E; congruence.
  - apply app_inv_head in E. destruct IA as [<-|[<-|[<-|[]]]]; destruct IB as [<-|[<-|[<-|[]]]]; cbn in E; unfold s_usage, s_help, s_version in *; congruence.
Qed.
Record kin (p q : parser) : Prop := { k_prefix : prefix q = prefix p; k_long : long_prefix q = long_prefix p; k_argc : argc q = argc p; k_program : program q = program p;
  k_version : version q = version p; k_invalid : invalid q = invalid p; k_conflict : conflict q = conflict p }.
Lemma flag_step p a : good p -> In a automatic -> exists q, add_flag p (fst a) (snd a) = Ok q /\ good q /\ (fine p -> fine q) /\ kin p q /\
  options q = options p ++ map (auto_option p) (filter (free p) [a]) /\ free q a = false /\ forall b, In b automatic -> b <> a -> free q b = free p b.
Proof.
  intros G I. pose proof (flag_exact p a (proj1 G) I) as F. cbn [filter]. unfold free at 1. destruct (contains (short_map p) [prefix p; fst a] || contains (long_map p) (long_prefix p ++ snd a)) eqn:C.
  - exists p. split; [exact F|]. split; [exact G|]. split; [auto|]. split; [constructor; reflexivity|]. cbn [negb map]. rewrite app_nil_r. split; [reflexivity|]. split; [unfold free; rewrite C; reflexivity|auto].
  - destruct F as (q & A & O & P & L & T & K & E1 & E2 & E3 & E4 & E5 & M1 & M2). exists q. split; [exact A|]. split; [exact (good_flag _ _ _ _ A G)|]. split; [exact (fine_flag _ _ _ _ A)|]. split; [constructor; assumption|].
    cbn [negb map]. split; [exact O|]. unfold free. rewrite P, L, M1, M2. split; [rewrite contains_put, seqb_refl; reflexivity|]. intros b IB NE. destruct (auto_distinct p b a IB I NE) as (D1 & D2). rewrite !contains_put, D1, D2. reflexivity.
Qed.
Lemma kin_trans p q r : kin p q -> kin q r -> kin p r. Proof. intros [] []. constructor; congruence. Qed.
Lemma auto_kin p q a : kin p q -> auto_option q a = auto_option p a.
Proof. intros [A B _ _ _ _ _]. unfold auto_option, auto_names. rewrite A, B. reflexivity. Qed.
(** What comes before the arguments are read, when the options are valid. *)
Lemma prepare_ok p n prog os : good p -> validate_all (with_args p n prog) (options p) = Ok os ->
  exists p1 p2 p3, add_usage_option (with_options (with_invalid (with_args p n prog) []) os) = Ok p1 /\ add_help_option p1 = Ok p2 /\ add_version_option p2 [] = Ok p3 /\
    good p3 /\ (fine p -> fine p3) /\ options p3 = os ++ map (auto_option p) (filter (free p) automatic) /\ (forall a, In a automatic -> free p3 a = false) /\
    kin (with_version (with_invalid (with_args p n prog) []) []) p3.
Proof.
  intros G V. pose proof (validated_alike _ _ _ _ V) as AL. set (q := with_options (with_invalid (with_args p n prog) []) os) in *. pose proof (good_alike _ _ AL G) as Gq.
  destruct (flag_step q (117, s_usage) Gq ltac:(cbn; auto)) as (p1 & A1 & G1 & F1 & K1 & O1 & N1 & R1).
  destruct (flag_step p1 (104, s_help) G1 ltac:(cbn; auto)) as (p2 & A2 & G2 & F2 & K2 & O2 & N2 & R2).
  pose proof (good_alike _ _ (alike_version p2 []) G2) as G2'.
  destruct (flag_step (with_version p2 []) (118, s_version) G2' ltac:(cbn; auto)) as (p3 & A3 & G3 & F3 & K3 & O3 & N3 & R3).
  exists p1, p2, p3. split; [exact A1|]. split; [exact A2|]. split; [exact A3|]. split; [exact G3|]. split.
  { intros F. apply F3. eapply fine_alike; [apply alike_version|]. apply F2, F1. eapply fine_alike; [exact AL|exact F]. }
  assert (Q : forall a, free q a = free p a) by reflexivity. assert (W : forall a, free (with_version p2 []) a = free p2 a) by reflexivity.
  assert (I1 : In (117, s_usage) automatic) by (cbn; auto). assert (I2 : In (104, s_help) automatic) by (cbn; auto). assert (I3 : In (118, s_version) automatic) by (cbn; auto).
  assert (D12 : (104, s_help) <> (117, s_usage)) by discriminate. assert (D13 : (118, s_version) <> (117, s_usage)) by discriminate. assert (D23 : (118, s_version) <> (104, s_help)) by discriminate.
  split.
  { rewrite O3. change (options (with_version p2 [])) with (options p2). rewrite O2, O1. cbn [q options with_options]. rewrite <- !app_assoc. f_equal.
    assert (X2 : auto_option p1 = auto_option p) by (unfold auto_option, auto_names; rewrite (k_prefix _ _ K1), (k_long _ _ K1); reflexivity).
    assert (X3 : auto_option (with_version p2 []) = auto_option p) by (unfold auto_option, auto_names; cbn [prefix long_prefix with_version]; rewrite (k_prefix _ _ K2), (k_long _ _ K2), (k_prefix _ _ K1), (k_long _ _ K1); reflexivity).
    rewrite X2, X3. change (auto_option q) with (auto_option p). rewrite <- !map_app. f_equal. change automatic with [(117, s_usage); (104, s_help); (118, s_version)]. cbn [filter]. rewrite (W (118, s_version)), (R2 _ I3 D23), (R1 _ I3 D13), (R1 _ I2 D12), !Q. destruct (free p (117, s_usage)), (free p (104, s_help)), (free p (118, s_version)); reflexivity. }
  split.
  { intros a [<-|[<-|[<-|[]]]]; [| |exact N3].
    - rewrite R3 by (auto; discriminate). rewrite W, R2 by (auto; discriminate). exact N1.
    - rewrite R3 by (auto; discriminate). rewrite W. exact N2. }
  destruct K1 as [X1 X2 X3 X4 X5 X6 X7], K2 as [Y1 Y2 Y3 Y4 Y5 Y6 Y7], K3 as [Z1 Z2 Z3 Z4 Z5 Z6 Z7]. constructor; cbn in *; congruence.
Qed.
Lemma taken_free p a : fine p -> In a automatic -> (free p a = true <-> ~ taken p a).
Proof.
  intros ((T & S) & W & _) I. destruct (auto_types p a (proj2 (proj2 T)) I) as (T1 & T2). unfold free. rewrite negb_true_iff, orb_false_iff. unfold taken, auto_names.
  assert (K1 : kept_in p [prefix p; fst a] = lookup [prefix p; fst a] (short_map p)) by (unfold kept_in; rewrite T1; reflexivity).
  assert (K2 : kept_in p (long_prefix p ++ snd a) = lookup (long_prefix p ++ snd a) (long_map p)) by (unfold kept_in; rewrite T2; reflexivity).
  unfold contains. rewrite <- K1, <- K2. split.
  - intros (A & B) (o & n & IO & IN & IA). destruct (In_nth_error _ _ IO) as (i & N). destruct (W _ _ _ N IN) as (_ & j & K & _). destruct IA as [<-|[<-|[]]]; rewrite K in *; discriminate.
  - intros NT. split.
    + destruct (kept_in p [prefix p; fst a]) as [i|] eqn:K; [|reflexivity]. exfalso. apply NT. destruct (S _ _ K) as (o & N & IN). exists o, [prefix p; fst a]. split; [eapply nth_error_In; exact N|]. split; [exact IN|left; reflexivity].
    + destruct (kept_in p (long_prefix p ++ snd a)) as [i|] eqn:K; [|reflexivity]. exfalso. apply NT. destruct (S _ _ K) as (o & N & IN). exists o, (long_prefix p ++ snd a). split; [eapply nth_error_In; exact N|]. split; [exact IN|right; left; reflexivity].
Qed.

(** ** Preparing a parser *)
Definition prep (p : parser) : out parser :=
  do os <- validate_all p (options p); do p1 <- add_usage_option (with_options (with_invalid p []) os); do p2 <- add_help_option p1; add_version_option p2 [].
Lemma validate_ext p q o : prefix q = prefix p -> long_prefix q = long_prefix p -> validate q o = validate p o.
Proof.
  intros A B. unfold validate. assert (E : forall ns, first_long q ns = first_long p ns).
  { induction ns as [|n ns IH]; [reflexivity|]. cbn [first_long]. assert (X : extract_option_type q n = extract_option_type p n) by (unfold extract_option_type; rewrite A, B; reflexivity). rewrite X. destruct (extract_option_type p n); auto. }
  rewrite E. reflexivity.
Qed.
Lemma validate_all_ext p q os : prefix q = prefix p -> long_prefix q = long_prefix p -> validate_all q os = validate_all p os.
Proof. intros A B. induction os as [|o os IH]; [reflexivity|]. cbn [validate_all]. rewrite (validate_ext p q o A B), IH. reflexivity. Qed.
Lemma validate_all_iff p : length (long_prefix p) = 2%nat -> forall os os', validate_all p os = Ok os' <-> Forall2 (settled p) os os' /\ Forall complete os.
Proof.
  intros L. induction os as [|o os IH]; intros os'; cbn [validate_all].
  - split; [intros E; injection E as <-; split; constructor|]. intros (F & _). inversion F; subst. reflexivity.
  - split.
    + intros E. pose proof (validate_settled p o L) as S. destruct (validate p o) as (o1, [|]); cbn [fst snd] in S.
      * destruct (validate_all p os) as [r|e|f]; cbn [bnd] in E; try discriminate. injection E as <-. destruct (proj1 (IH r) eq_refl) as (A & B). destruct (S eq_refl) as (S1 & S2). split; constructor; assumption.
      * destruct (names o1); discriminate.
    + intros (F & C). inversion F as [|? o1 ? r S1 F1]; subst. inversion C as [|? ? C1 C2]; subst. rewrite (validate_complete p o o1 L S1 C1). rewrite (proj2 (IH r) (conj F1 C2)). reflexivity.
Qed.
Lemma register_args n s : forall ns p, register (with_args p n s) ns = (with_args (fst (register p ns)) n s, snd (register p ns)).
Proof.
  induction ns as [|x ns IH]; intros p; [reflexivity|]. cbn [register]. change (extract_option_type (with_args p n s) x) with (extract_option_type p x). cbn [conflict with_args short_map long_map options].
  destruct (extract_option_type p x); [| |reflexivity].
  - destruct (_ && _); [reflexivity|]. change (with_short (with_args p n s) (put x (length (options p) - 1)%nat (short_map p))) with (with_args (with_short p (put x (length (options p) - 1)%nat (short_map p))) n s). apply IH.
  - destruct (_ && _); [reflexivity|]. change (with_long (with_args p n s) (put x (length (options p) - 1)%nat (long_map p))) with (with_args (with_long p (put x (length (options p) - 1)%nat (long_map p))) n s). apply IH.
Qed.
Lemma flag_args n s p c nm : add_flag (with_args p n s) c nm = do q <- add_flag p c nm; Ok (with_args q n s).
Proof.
  unfold add_flag. cbn [prefix long_prefix short_map long_map with_args]. destruct (_ && _); [|reflexivity]. unfold add_option. cbn [options with_args].
  change (with_options (with_args p n s) (options p ++ [fresh [[prefix p; c]; long_prefix p ++ nm]])) with (with_args (with_options p (options p ++ [fresh [[prefix p; c]; long_prefix p ++ nm]])) n s). rewrite register_args.
  destruct (register (with_options p (options p ++ [fresh [[prefix p; c]; long_prefix p ++ nm]])) [[prefix p; c]; long_prefix p ++ nm]) as (q, [e|]); reflexivity.
Qed.
Lemma prep_args n s p : prep (with_args p n s) = do q <- prep p; Ok (with_args q n s).
Proof.
  unfold prep. rewrite (validate_all_ext p (with_args p n s) _ eq_refl eq_refl). cbn [options with_args]. rewrite !bnd_assoc. apply bnd_ext. intros os.
  change (with_options (with_invalid (with_args p n s) []) os) with (with_args (with_options (with_invalid p []) os) n s). unfold add_usage_option, add_help_option, add_version_option. rewrite flag_args, !bnd_assoc. apply bnd_ext. intros p1. cbn [bnd].
  rewrite flag_args, !bnd_assoc. apply bnd_ext. intros p2. cbn [bnd]. change (with_version (with_args p2 n s) []) with (with_args (with_version p2 []) n s). apply flag_args.
Qed.
Lemma args_same p : with_args p (argc p) (program p) = p. Proof. destruct p; reflexivity. Qed.
Lemma prep_ok p q : good p -> prep p = Ok q ->
  exists own, validate_all p (options p) = Ok own /\ good q /\ (fine p -> fine q) /\ options q = own ++ map (auto_option p) (filter (free p) automatic) /\ (forall a, In a automatic -> free q a = false) /\
    kin (with_version (with_invalid p []) []) q.
Proof.
  unfold prep. intros G H. destruct (validate_all p (options p)) as [os|e|f] eqn:V; cbn [bnd] in H; try discriminate. exists os. split; [reflexivity|].
  destruct (prepare_ok p (argc p) (program p) os G ltac:(rewrite args_same; exact V)) as (p1 & p2 & p3 & A1 & A2 & A3 & R). rewrite args_same in *. rewrite A1 in H. cbn [bnd] in H. rewrite A2 in H. cbn [bnd] in H. rewrite A3 in H. injection H as <-. exact R.
Qed.
Lemma prep_exists p own : good p -> validate_all p (options p) = Ok own -> exists q, prep p = Ok q.
Proof.
  unfold prep. intros G V. rewrite V. cbn [bnd]. destruct (prepare_ok p (argc p) (program p) own G ltac:(rewrite args_same; exact V)) as (p1 & p2 & p3 & A1 & A2 & A3 & R). rewrite args_same in *. rewrite A1. cbn [bnd]. rewrite A2. cbn [bnd]. rewrite A3. eauto.
Qed.
Lemma auto_settled p a : In a automatic -> settled p (auto_option p a) (auto_option p a) /\ complete (auto_option p a).
Proof.
  intros I. split.
  - unfold settled. repeat (split; [reflexivity|]). split; [|left; reflexivity]. destruct I as [<-|[<-|[<-|[]]]]; discriminate.
  - split; [discriminate|]. split; [discriminate|left; reflexivity].
Qed.
Lemma settled_again p o o' : settled p o o' -> settled p o' o'.
Proof. intros (A & B & C & D & E & F & G & _). unfold settled. repeat (split; [reflexivity|]). split; [exact G|]. left. reflexivity. Qed.
Lemma settled_ext p q o o' : long_prefix q = long_prefix p -> settled p o o' -> settled q o o'.
Proof. intros E. unfold settled, long_name. rewrite E. auto. Qed.
Lemma settled_complete p o o' : settled p o o' -> complete o -> complete o'.
Proof. intros (A & B & C & D & E & F & _). unfold complete. rewrite A, B, C, E. auto. Qed.
(** A prepared parser stays as it is. *)
Lemma prep_again p q : good p -> prep p = Ok q -> prep q = Ok q.
Proof.
  intros G H. destruct (prep_ok _ _ G H) as (own & V & Gq & _ & O & N & K). pose proof (proj2 (proj2 (proj1 G))) as L. apply (validate_all_iff p L) in V. destruct V as (F & C).
  assert (LQ : length (long_prefix q) = 2%nat) by (rewrite (k_long _ _ K); exact L).
  assert (V : validate_all q (options q) = Ok (options q)).
  { apply (validate_all_iff q LQ). rewrite O. split.
    - apply Forall2_app.
      + clear - F K. induction F as [|o o' l l' S F IH]; constructor; [|exact IH]. eapply settled_ext; [|eapply settled_again; exact S]. exact (k_long _ _ K).
      + assert (X : forall l, incl l automatic -> Forall2 (settled q) (map (auto_option p) l) (map (auto_option p) l)).
        { induction l as [|a l IH]; intros IN; constructor; [|apply IH; intros y Y; apply IN; right; exact Y]. apply (settled_ext p); [exact (k_long _ _ K)|]. apply auto_settled. apply IN. left. reflexivity. }
        apply X. intros a I. apply filter_In in I. exact (proj1 I).
    - apply Forall_app. split.
      + clear - F C. induction F as [|o o' l l' S F IH]; inversion C; subst; constructor; auto. eapply settled_complete; eassumption.
      + apply Forall_forall. intros o I. apply in_map_iff in I. destruct I as (a & <- & I). apply filter_In in I. apply auto_settled. exact (proj1 I). }
  unfold prep. rewrite V. cbn [bnd].
  assert (E0 : with_options (with_invalid q []) (options q) = q).
  { pose proof (k_invalid _ _ K) as I. cbn in I. destruct q. cbn in *. subst. reflexivity. }
  rewrite E0. assert (NF : forall a, In a automatic -> add_flag q (fst a) (snd a) = Ok q).
  { intros a I. pose proof (flag_exact q a (proj1 Gq) I) as X. specialize (N a I). unfold free in N. rewrite negb_false_iff in N. rewrite N in X. exact X. }
  unfold add_usage_option, add_help_option, add_version_option. pose proof (NF (117, s_usage) ltac:(cbn; auto)) as N1. pose proof (NF (104, s_help) ltac:(cbn; auto)) as N2. cbn [fst snd] in N1, N2. rewrite N1. cbn [bnd]. rewrite N2. cbn [bnd].
  assert (E1 : with_version q [] = q). { pose proof (k_version _ _ K) as I. cbn in I. destruct q. cbn in *. subst. reflexivity. }
  rewrite E1. apply (NF (118, s_version)). cbn; auto.
Qed.

Section Again.
Variables (real : type -> str -> Z) (getenv : str -> option str).
Notation process_opt := (process_opt real).
Notation parse_args := (parse_args real getenv).
Notation parse_loop := (parse_loop real).
Notation run_values := (run_values real).
Notation handle_opt := (handle_opt real).
(** What comes after preparing. *)
Definition finish (p : parser) (av : list str) : out (parser * vstore) :=
  do w <- parse_loop (S (length av)) p (argc p mod 2 ^ 32) {| w_store := empty_store; w_args := {| args := av; it := 0 |}; w_invalid := [] |};
  do st1 <- use_defaults real (options p) (w_store w);
  do st2 <- use_env real getenv (options p) st1;
  Ok (with_invalid p (w_invalid w), st2).
Lemma parse_args_prep p a0 av : parse_args p (a0 :: av) = do q <- prep p; finish (with_args q (Z.of_nat (length (a0 :: av))) (if nullb (program p) then a0 else program p)) av.
Proof.
  cbn [OptModel.parse_args]. unfold parse_vector. set (n := Z.of_nat (length (a0 :: av))). set (s := if nullb (program p) then a0 else program p).
  transitivity (do q <- prep (with_args p n s); finish q av).
  - unfold prep. rewrite !bnd_assoc. apply bnd_ext. intros os. rewrite !bnd_assoc. apply bnd_ext. intros p1. rewrite !bnd_assoc. apply bnd_ext. intros p2. reflexivity.
  - rewrite prep_args, bnd_assoc. reflexivity.
Qed.
Lemma run_values_args n s p k o : forall fuel w, run_values fuel (with_args p n s) k o w = run_values fuel p k o w.
Proof.
  induction fuel as [|fuel IH]; intros w; [reflexivity|]. cbn [OptModel.run_values]. destruct (empty (w_args w)); [reflexivity|]. apply bnd_ext. intros x. cbn [prefix with_args]. destruct (starts_with x (prefix p)); [reflexivity|]. apply bnd_ext. intros (v, a).
  destruct (act o); apply bnd_ext; intros; try destruct a0; apply IH.
Qed.
Lemma handle_args n s p k w : handle_opt (with_args p n s) k w = handle_opt p k w.
Proof.
  unfold OptModel.handle_opt. destruct (empty (w_args w)); [reflexivity|]. apply bnd_ext. intros (fr, a). change (find_opt (with_args p n s)) with (find_opt p). cbn [options with_args]. destruct (find_opt p _); [|reflexivity]. destruct (nth_error (options p) n0); [|reflexivity].
  change (has_value_to_process (with_args p n s) fr a) with (has_value_to_process p fr a). apply bnd_ext. intros h. destruct (negb h); [reflexivity|]. destruct (extract_opt_value fr).
  - destruct (empty a); [reflexivity|]. apply bnd_ext. intros (v, a1). apply bnd_ext. intros (st, b). rewrite run_values_args. reflexivity.
  - apply bnd_ext. intros (st, b). rewrite run_values_args. reflexivity.
Qed.
Lemma loop_args n s p k : forall fuel w, parse_loop fuel (with_args p n s) k w = parse_loop fuel p k w.
Proof.
  induction fuel as [|fuel IH]; intros w; [reflexivity|]. cbn [OptModel.parse_loop]. destruct (empty (w_args w)); [reflexivity|]. apply bnd_ext. intros fr. change (extract_arg_type (with_args p n s) fr) with (extract_arg_type p fr). destruct (extract_arg_type p fr).
  - rewrite handle_args. apply bnd_ext. intros (w1, ok). destruct ok; [apply IH|]. apply bnd_ext. intros i. apply IH.
  - rewrite handle_args. apply bnd_ext. intros (w1, ok). destruct ok; [apply IH|]. apply bnd_ext. intros i. apply IH.
  - apply bnd_ext. intros (x, a). apply bnd_ext. intros i. apply IH.
Qed.
Definition outcome (r : out (parser * vstore)) : out (vstore * list nat * list option_) := do (q, st) <- r; Ok (st, invalid_args q, options q).
Lemma finish_args p n s s' av : outcome (finish (with_args p n s) av) = outcome (finish (with_args p n s') av).
Proof.
  unfold finish, outcome. cbn [argc options with_args]. rewrite !loop_args, !bnd_assoc. apply bnd_ext. intros w. rewrite !bnd_assoc. apply bnd_ext. intros st1. rewrite !bnd_assoc. apply bnd_ext. intros st2. reflexivity.
Qed.
Lemma finish_parser p av p' st : finish p av = Ok (p', st) -> exists l, p' = with_invalid p l.
Proof.
  unfold finish. intros H. destruct (parse_loop (S (length av)) p (argc p mod 2 ^ 32) {| w_store := empty_store; w_args := {| args := av; it := 0 |}; w_invalid := [] |}) as [w|e|f]; cbn [bnd] in H; try discriminate.
  destruct (use_defaults real (options p) (w_store w)) as [st1|e|f]; cbn [bnd] in H; try discriminate. destruct (use_env real getenv (options p) st1) as [st2|e|f]; cbn [bnd] in H; try discriminate. injection H as <- _. eauto.
Qed.
Lemma again p argv p1 st1 : good p -> parse_args p argv = Ok (p1, st1) -> forall argv2, outcome (parse_args p1 argv2) = outcome (parse_args p argv2).
Proof.
  intros G H argv2. destruct argv as [|a0 av]; [discriminate|]. destruct argv2 as [|b0 bv]; [reflexivity|]. rewrite parse_args_prep in H. destruct (prep p) as [q|e|f] eqn:P; cbn [bnd] in H; try discriminate.
  destruct (finish_parser _ _ _ _ H) as (l & ->). rewrite !parse_args_prep, P. cbn [bnd].
  set (n := Z.of_nat (length (a0 :: av))). set (s := if nullb (program p) then a0 else program p).
  assert (E : prep (with_invalid (with_args q n s) l) = Ok (with_args q n s)).
  { transitivity (prep (with_args q n s)).
    - unfold prep. rewrite (validate_all_ext (with_args q n s) (with_invalid (with_args q n s) l) _ eq_refl eq_refl). reflexivity.
    - rewrite prep_args, (prep_again _ _ G P). reflexivity. }
  rewrite E. cbn [bnd]. apply (finish_args q).
Qed.
Lemma parse_equipped p argv p' st : fine p -> parse_args p argv = Ok (p', st) -> equipped p (options p') /\ Forall complete (options p).
Proof.
  intros F H. destruct argv as [|a0 av]; [discriminate|]. rewrite parse_args_prep in H. destruct (prep p) as [q|e|f] eqn:P; cbn [bnd] in H; try discriminate. destruct (finish_parser _ _ _ _ H) as (l & ->). cbn [options with_invalid with_args].
  pose proof (proj1 F) as G. destruct (prep_ok _ _ G P) as (own & V & _ & _ & O & _). apply (validate_all_iff p (proj2 (proj2 (proj1 G)))) in V. destruct V as (S & C). split; [|exact C]. exists own, (free p). split; [exact O|]. split; [exact S|].
  intros a I. apply taken_free; assumption.
Qed.
End Again.
