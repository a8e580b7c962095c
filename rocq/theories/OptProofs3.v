(** Texts become values, and values get into the store. *)
Require Import ZArith List Bool Lia Arith.
From Verif Require Import OptModel OptSpec OptSpec2 OptProofs OptProofs2.
Import ListNotations.
Open Scope Z_scope.

(** ** Numbers *)
Lemma digit_ok c : digit c = true <-> is_digit c.
Proof. unfold digit, is_digit. rewrite andb_true_iff, !Z.leb_le. lia. Qed.
Lemma digits_run ds : forall rest a, Forall is_digit ds -> (forall c r, rest = c :: r -> ~ is_digit c) -> digits (ds ++ rest) a = a * 10 ^ Z.of_nat (length ds) + decimal ds.
Proof.
  induction ds as [|d ds IH]; intros rest a F N.
  - cbn [app length decimal Z.of_nat]. rewrite Z.pow_0_r. destruct rest as [|c r]; cbn [digits]; [lia|]. specialize (N c r eq_refl). rewrite <- digit_ok in N. destruct (digit c); [congruence|lia].
  - inversion F as [|? ? D F']; subst. cbn [app digits]. apply digit_ok in D. rewrite D. rewrite IH by assumption. cbn [length decimal]. rewrite Nat2Z.inj_succ, Z.pow_succ_r by lia. lia.
Qed.
Lemma digit_run s : exists ds rest, s = ds ++ rest /\ Forall is_digit ds /\ (forall c r, rest = c :: r -> ~ is_digit c).
Proof.
  induction s as [|c s (ds & rest & -> & F & N)]; [exists [], []; repeat split; [constructor|discriminate]|].
  destruct (digit c) eqn:D.
  - apply digit_ok in D. exists (c :: ds), rest. repeat split; [constructor; assumption|exact N].
  - exists [], (c :: ds ++ rest). repeat split; [constructor|]. intros x r E. injection E as <- _. rewrite <- digit_ok. congruence.
Qed.
Lemma integer_plain s : (forall c r, s = c :: r -> c <> 43 /\ c <> 45) -> integer s = digits s 0.
Proof.
  intros H. unfold integer. destruct s as [|c r]; [reflexivity|]. destruct (H c r eq_refl) as (A & B).
  repeat match goal with |- match ?z with _ => _ end = _ => is_var z; destruct z; try reflexivity; try congruence end.
Qed.
Lemma integer_ok x : numeral x (integer x).
Proof.
  assert (A : forall s, exists ds rest, s = ds ++ rest /\ Forall is_digit ds /\ (forall c r, rest = c :: r -> ~ is_digit c) /\ digits s 0 = decimal ds).
  { intros s. destruct (digit_run s) as (ds & rest & -> & F & N). exists ds, rest. repeat split; auto. rewrite digits_run; auto. }
  destruct x as [|c r].
  - exists [], [], []. repeat split; try constructor; try discriminate. split; [reflexivity|]. split; [discriminate|reflexivity].
  - destruct (Z.eq_dec c 45) as [->|N45]; [|destruct (Z.eq_dec c 43) as [->|N43]].
    + destruct (A r) as (ds & rest & -> & F & N & E). exists [45], ds, rest. repeat split; auto. right. right. split; [reflexivity|]. cbn [integer]. rewrite E. reflexivity.
    + destruct (A r) as (ds & rest & -> & F & N & E). exists [43], ds, rest. repeat split; auto.
    + assert (P : forall c0 r0, c :: r = c0 :: r0 -> c0 <> 43 /\ c0 <> 45) by (intros c0 r0 Q; injection Q as -> ->; auto).
      rewrite (integer_plain _ P). destruct (A (c :: r)) as (ds & rest & E1 & F & N & E). exists [], ds, rest. repeat split; auto.
Qed.
Lemma integer_is x n : numeral x n -> integer x = n.
Proof.
  intros (sign & ds & rest & -> & F & N & [(-> & P & ->)|[(-> & ->)|(-> & ->)]]).
  - cbn [app] in *. rewrite integer_plain by exact P. rewrite digits_run by assumption. lia.
  - cbn [app integer]. rewrite digits_run by assumption. lia.
  - cbn [app integer]. rewrite digits_run by assumption. lia.
Qed.
Lemma clamp_ok lo hi n : lo <= hi -> nearest lo hi n (clamp lo hi n).
Proof. unfold nearest, clamp. lia. Qed.
Lemma clamp_is lo hi n m : lo <= hi -> nearest lo hi n m -> clamp lo hi n = m.
Proof. unfold nearest, clamp. lia. Qed.

Lemma skip_ok s : exists b, s = b ++ skip_blanks s /\ Forall white b /\ (forall c r, skip_blanks s = c :: r -> ~ white c).
Proof.
  induction s as [|c s (b & E & F & N)]; [exists []; repeat split; [constructor|discriminate]|]. cbn [skip_blanks]. destruct (blank c) eqn:B.
  - exists (c :: b). split; [cbn; congruence|]. split; [constructor; [apply blank_white; exact B|exact F]|exact N].
  - exists []. repeat split; [constructor|]. intros x r Q. injection Q as <- _. apply not_blank. exact B.
Qed.
Lemma cstr_ok s : exists z, s = cstr s ++ z /\ ~ In 0 (cstr s) /\ (z = [] \/ exists r, z = 0 :: r).
Proof.
  induction s as [|c s (z & E & N & Q)]; [exists []; repeat split; auto|]. cbn [cstr]. destruct (Z.eqb_spec c 0) as [->|NE].
  - exists (0 :: s). repeat split; eauto.
  - exists z. split; [cbn; congruence|]. split; [intros [?|?]; auto|exact Q].
Qed.
Lemma cstr_is x z : ~ In 0 x -> (z = [] \/ exists r, z = 0 :: r) -> cstr (x ++ z) = x.
Proof.
  intros N Q. induction x as [|c x IH]; cbn [app cstr].
  - destruct Q as [->|(r & ->)]; reflexivity.
  - destruct (Z.eqb_spec c 0) as [->|]; [exfalso; apply N; left; reflexivity|]. rewrite IH; [reflexivity|]. intros H. apply N. right. exact H.
Qed.
Lemma skip_is b c r : Forall white b -> ~ white c -> skip_blanks (b ++ c :: r) = c :: r.
Proof.
  induction 1 as [|x b W _ IH]; intros N; cbn [app skip_blanks].
  - apply not_blank in N. rewrite N. reflexivity.
  - apply blank_white in W. rewrite W. auto.
Qed.
Lemma body_ok s c r : skip_blanks (cstr s) = c :: r -> body s (c :: r).
Proof.
  intros E. destruct (cstr_ok s) as (z & E1 & N & Q). destruct (skip_ok (cstr s)) as (b & E2 & F & W). rewrite E in *. exists b, z.
  split; [rewrite app_assoc, <- E2; exact E1|]. split; [exact F|]. split; [intros I; apply N; rewrite E2; apply in_or_app; right; exact I|]. split; [exact Q|]. exists c, r. split; [reflexivity|exact (W c r eq_refl)].
Qed.
Lemma body_is s x : body s x -> skip_blanks (cstr s) = x.
Proof.
  intros (b & z & -> & F & N & Q & c & r & -> & W). rewrite app_assoc. rewrite cstr_is; [apply skip_is; assumption| |exact Q].
  rewrite in_app_iff. intros [I|I]; [|exact (N I)]. rewrite Forall_forall in F. specialize (F 0 I). unfold white in F. lia.
Qed.

Section S.
Variable real : type -> str -> Z.
Notation process_opt := (process_opt real).
Notation parse_value := (parse_value real).
Notation reads_as := (reads_as real).
Notation gives := (gives real).
Notation each := (each real).

Lemma member_ok k s : member k s = true <-> In k s.
Proof.
  unfold member. rewrite existsb_exists. split; [intros (x & I & E); apply seqb_eq in E; subst; exact I|intros I; exists k; split; [exact I|apply seqb_refl]].
Qed.
Lemma parse_ok o s v : parse_value s o = Ok v -> reads_as o s v.
Proof.
  unfold OptModel.parse_value. destruct (typ o) eqn:T.
  1,2,3,4,5: unfold parse_string; destruct (skip_blanks (cstr s)) as [|c r] eqn:B; cbn [bnd]; [discriminate|]; pose proof (integer_ok (c :: r)) as I; revert I; generalize (integer (c :: r)); intros n I H; injection H as <-; apply body_ok in B.
  - eapply ra_bool; [exact T|exact B|exact I|]. unfold clamp. destruct (Z.eqb_spec (Z.max (- 2 ^ 63) (Z.min (2 ^ 63 - 1) n)) 0); cbn; split; try discriminate; try congruence; lia.
  - eapply ra_int; [exact T|exact B|exact I|]. apply clamp_ok. lia.
  - eapply ra_long; [exact T|exact B|exact I|]. apply clamp_ok. lia.
  - eapply ra_float; [exact T|exact B].
  - eapply ra_double; [exact T|exact B].
  - intros H. injection H as <-. destruct (member s (choices o)) eqn:M.
    + apply ra_choice; [exact T|]. apply member_ok. exact M.
    + apply ra_other; [exact T|]. rewrite <- member_ok. congruence.
  - intros H. injection H as <-. apply ra_string. exact T.
Qed.
Lemma parse_is o s v : reads_as o s v -> parse_value s o = Ok v.
Proof.
  unfold OptModel.parse_value. intros H. destruct H as [T|T I|T I|x n b T B N E|x n m T B N E|x n m T B N E|x T B|x T B]; rewrite T.
  - reflexivity.
  - apply member_ok in I. rewrite I. reflexivity.
  - rewrite <- member_ok in I. destruct (member s (choices o)); congruence.
  - unfold parse_string. pose proof (body_is _ _ B) as ->. destruct B as (_ & _ & _ & _ & _ & _ & c & r & -> & _). rewrite (integer_is _ _ N). cbn [bnd]. do 3 f_equal.
    unfold clamp. destruct (Z.eqb_spec (Z.max (- 2 ^ 63) (Z.min (2 ^ 63 - 1) n)) 0); destruct b; cbn; try reflexivity; exfalso; destruct E as (E1 & E2); [assert (true = false) by (apply E2; lia); discriminate|specialize (E1 eq_refl); lia].
  - unfold parse_string. pose proof (body_is _ _ B) as ->. destruct B as (_ & _ & _ & _ & _ & _ & c & r & -> & _). rewrite (integer_is _ _ N). cbn [bnd]. rewrite (clamp_is _ _ _ m) by (auto; lia). reflexivity.
  - unfold parse_string. pose proof (body_is _ _ B) as ->. destruct B as (_ & _ & _ & _ & _ & _ & c & r & -> & _). rewrite (integer_is _ _ N). cbn [bnd]. rewrite (clamp_is _ _ _ m) by (auto; lia). reflexivity.
  - unfold parse_string. pose proof (body_is _ _ B) as ->. destruct B as (_ & _ & _ & _ & _ & _ & c & r & -> & _). reflexivity.
  - unfold parse_string. pose proof (body_is _ _ B) as ->. destruct B as (_ & _ & _ & _ & _ & _ & c & r & -> & _). reflexivity.
Qed.
Lemma reads_unique o s v v' : reads_as o s v -> reads_as o s v' -> v = v'.
Proof. intros A B. apply parse_is in A, B. congruence. Qed.

(** ** The store *)
Lemma lookup_put {A} k k' (a : A) m : lookup k (put k' a m) = if seqb k k' then Some a else lookup k m.
Proof.
  induction m as [|(x, b) m IH]; cbn [put lookup].
  - destruct (seqb k k'); reflexivity.
  - destruct (seqb k' x) eqn:E.
    + apply seqb_eq in E. subst. cbn [lookup]. destruct (seqb k x); reflexivity.
    + cbn [lookup]. destruct (seqb k x) eqn:Ex; [|exact IH]. apply seqb_eq in Ex. subst. destruct (seqb x k') eqn:Ek; [|reflexivity]. apply seqb_eq in Ek. subst. rewrite seqb_refl in E. discriminate.
Qed.
Lemma triple {A B C} (a x : A) (b y : B) (c z : C) : (a, b, c) = (x, y, z) -> a = x /\ b = y /\ c = z.
Proof. intros H. injection H as -> -> ->. auto. Qed.
(** What the store shows for [d]. *)
Definition view (st : vstore) (d : str) : option value * option (list value) * bool := (get st d, get_list st d, user_set st d).
Lemma view_set st k v d : view (set_value st k v) d = if seqb d k then (Some v, get_list st d, true) else view st d.
Proof. unfold view, get, get_list, user_set, set_value, member. cbn [values lists usr_set existsb]. rewrite lookup_put. destruct (seqb d k); reflexivity. Qed.
Lemma view_append st k v d : view (append_value st k v) d =
  if seqb d k then (get st d, Some (match get_list st k with None => [v] | Some l => l ++ [v] end), true) else view st d.
Proof. unfold view, get, get_list, user_set, append_value, member. cbn [values lists usr_set existsb]. rewrite lookup_put. destruct (seqb d k); reflexivity. Qed.
Lemma view_increment st k st' d : increment st k = Ok st' -> view st' d =
  if seqb d k then (Some (VInt (match get st k with Some (VInt n) => n + 1 | _ => 1 end)), get_list st d, user_set st d) else view st d.
Proof.
  unfold increment, view, get, get_list, user_set. destruct (lookup k (values st)) as [[]|] eqn:L; try discriminate.
  - destruct (n + 1 <? 2 ^ 31); [|discriminate]. intros H. injection H as <-. cbn [values lists usr_set]. rewrite lookup_put. destruct (seqb d k); reflexivity.
  - intros H. injection H as <-. cbn [values lists usr_set]. rewrite lookup_put. destruct (seqb d k); reflexivity.
Qed.

(** The values [vs], and whether there are any. *)
Definition shows (o : option_) (st : vstore) (vs : list value) : Prop := has o st vs /\ user_set st (dest o) = negb (nullb vs).
Definition counts (o : option_) (st : vstore) (n : nat) : Prop :=
  view st (dest o) = (match n with O => None | _ => Some (VInt (Z.of_nat n)) end, None, false).

Lemma last_snoc {A} (l : list A) x : last_of (l ++ [x]) = Some x.
Proof. induction l as [|y l IH]; [reflexivity|]. cbn [app last_of]. destruct (l ++ [x]) eqn:E; [destruct l; discriminate|exact IH]. Qed.
Lemma nullb_snoc {A} (l : list A) x : nullb (l ++ [x]) = false. Proof. destruct l; reflexivity. Qed.
Lemma some_snoc {A} (l : list A) x : some_list (l ++ [x]) = Some (l ++ [x]). Proof. destruct l; reflexivity. Qed.
Lemma shows_view o st st' vs : view st' (dest o) = view st (dest o) -> shows o st vs -> shows o st' vs.
Proof. unfold view, shows, has. intros E. apply triple in E. destruct E as (E1 & E2 & E3). rewrite E1, E2, E3. auto. Qed.
Lemma shows_set o st vs v : act o <> Append -> shows o st vs -> shows o (set_value st (dest o) v) (vs ++ [v]).
Proof.
  intros NA (H & U). pose proof (view_set st (dest o) v (dest o)) as V. rewrite seqb_refl in V. unfold view in V. apply triple in V. destruct V as (V1 & V2 & V3).
  unfold shows, has in *. rewrite V1, V2, V3, last_snoc, nullb_snoc. destruct (act o); try congruence; intuition.
Qed.
Lemma shows_append o st vs v : act o = Append -> shows o st vs -> shows o (append_value st (dest o) v) (vs ++ [v]).
Proof.
  intros A (H & U). pose proof (view_append st (dest o) v (dest o)) as V. rewrite seqb_refl in V. unfold view in V. apply triple in V. destruct V as (V1 & V2 & V3).
  unfold shows, has in *. rewrite A in *. rewrite V1, V2, V3, nullb_snoc, some_snoc. destruct H as (H1 & H2). rewrite H1. destruct vs; auto.
Qed.

Lemma multi_ok s : is_multi_value s = true <-> In 44 s.
Proof.
  unfold is_multi_value. destruct (find [44] s 0) as [j|] eqn:E.
  - destruct (find_char_some _ _ _ E) as (y & E1 & _). split; [|reflexivity]. intros _. rewrite E1. apply in_or_app. right. left. reflexivity.
  - apply find_char_none in E. split; [discriminate|contradiction].
Qed.
Lemma append_all_ok o ts : forall st st' b, append_all real o st ts = Ok (st', b) -> exists vs, each o ts vs /\ st' = fold_left (fun st v => append_value st (dest o) v) vs st.
Proof.
  induction ts as [|t ts IH]; intros st st' b; cbn [append_all].
  - intros H. injection H as <- <-. exists []. split; [constructor|reflexivity].
  - destruct (parse_value t o) as [v|e|f] eqn:P; cbn [bnd]; try discriminate. apply parse_ok in P. destruct v as [v|]; intros H.
    + destruct (IH _ _ _ H) as (vs & E & ->). exists (v :: vs). split; [constructor; assumption|reflexivity].
    + injection H as <- <-. exists []. split; [apply e_stop; exact P|reflexivity].
Qed.
Lemma shows_appends o vs : forall st l, act o = Append -> shows o st l -> shows o (fold_left (fun st v => append_value st (dest o) v) vs st) (l ++ vs).
Proof.
  induction vs as [|v vs IH]; intros st l A H; cbn [fold_left]; [rewrite app_nil_r; exact H|]. replace (l ++ v :: vs) with ((l ++ [v]) ++ vs) by (rewrite <- app_assoc; reflexivity).
  apply IH; [exact A|]. apply shows_append; assumption.
Qed.
Lemma each_unique o ts vs : each o ts vs -> forall vs', each o ts vs' -> vs = vs'.
Proof.
  induction 1 as [|s v l vs R E IH|s l R]; intros vs' H; inversion H; subst; try reflexivity;
  match goal with A : reads_as o s ?x, B : reads_as o s ?y |- _ => pose proof (reads_unique _ _ _ _ A B) as Q; try congruence end.
  injection Q as <-. f_equal. auto.
Qed.

Definition text (u : option str) : str := match u with Some s => s | None => [] end.
(** One use: what the option had, and what the use gives. *)
Lemma process_gives o st u st' b : (u = None -> typ o = TBool) -> process_opt o st (text u) = Ok (st', b) -> act o <> Count ->
  exists vs, gives o u vs /\ forall l, shows o st l -> shows o st' (l ++ vs).
Proof.
  intros UT H NC.
  assert (NONE : u = None -> (act o = Store \/ act o = Append) -> False).
  { intros -> A. specialize (UT eq_refl). unfold OptModel.process_opt, OptModel.parse_value in H. rewrite UT in H. destruct A as [A|A]; rewrite A in H; cbn in H; discriminate. }
  assert (ST : forall s, u = Some s -> act o = Store \/ (act o = StoreTrue \/ act o = StoreFalse) /\ s <> [] ->
     (do x <- parse_value s o; match x with Some v => Ok (set_value st (dest o) v, true) | None => Ok (st, false) end) = Ok (st', b) ->
     exists vs, gives o u vs /\ forall l, shows o st l -> shows o st' (l ++ vs)).
  { intros s -> A Q. destruct (parse_value s o) as [v|e|f] eqn:P; cbn [bnd] in Q; try discriminate. apply parse_ok in P. exists (only v). split; [apply g_store; assumption|].
    intros l L. destruct v as [v|]; injection Q as <- <-; cbn [only]; [|rewrite app_nil_r; exact L]. apply shows_set; [|exact L]. destruct A as [A|([A|A] & _)]; rewrite A; discriminate. }
  unfold OptModel.process_opt in H. destruct (act o) eqn:A; try discriminate; try congruence.
  - destruct u as [s|]; [|exfalso; apply NONE; auto]. apply (ST s eq_refl); [left; reflexivity|]. exact H.
  - destruct (text u) as [|c r] eqn:T; cbn [nullb] in H.
    + exists [VBool true]. split; [apply g_true; [exact A|]; destruct u as [s|]; cbn in T; subst; auto|]. injection H as <- <-. intros l L. apply shows_set; [rewrite A; discriminate|exact L].
    + destruct u as [s|]; cbn in T; [|discriminate]. subst s. apply (ST _ eq_refl); [right; split; [auto|discriminate]|]. exact H.
  - destruct (text u) as [|c r] eqn:T; cbn [nullb] in H.
    + exists [VBool false]. split; [apply g_false; [exact A|]; destruct u as [s|]; cbn in T; subst; auto|]. injection H as <- <-. intros l L. apply shows_set; [rewrite A; discriminate|exact L].
    + destruct u as [s|]; cbn in T; [|discriminate]. subst s. apply (ST _ eq_refl); [right; split; [auto|discriminate]|]. exact H.
  - destruct u as [s|]; [|exfalso; apply NONE; auto]. cbn [text] in H. destruct (is_multi_value s) eqn:M; cbn [negb] in H.
    + apply multi_ok in M. destruct (split_ok s 44 true) as (l & P & E). rewrite E in H. cbn [bnd] in H. destruct (append_all_ok _ _ _ _ _ H) as (vs & EV & ->).
      exists vs. split; [|intros l0 L; apply shows_appends; assumption]. eapply g_list; try eassumption. clear. unfold kept.
      replace (filter (fun x => negb (length x =? 0)%nat) l) with (filter (fun x : str => negb (nullb x)) l).
      * change str with (list Z). generalize (filter (fun x : list Z => negb (nullb x)) l). intros q. induction q as [|x q IH]; cbn [map]; constructor; [apply trim_ok|exact IH].
      * clear. induction l as [|x l IH]; [reflexivity|]. cbn [filter]. rewrite IH. destruct x; reflexivity.
    + assert (NM : ~ In 44 s) by (rewrite <- multi_ok; congruence). destruct (parse_value s o) as [v|e|f] eqn:P; cbn [bnd] in H; try discriminate. apply parse_ok in P. exists (only v). split; [apply g_one; assumption|].
      intros l L. destruct v as [v|]; injection H as <- <-; cbn [only]; [|rewrite app_nil_r; exact L]. apply shows_append; assumption.
Qed.
Lemma gives_unique o u vs vs' : gives o u vs -> gives o u vs' -> vs = vs'.
Proof.
  assert (OR : forall s, u = Some s -> (u = None /\ typ o = TBool \/ u = Some []) -> s = []) by (intros s -> [(E & _)|E]; congruence).
  intros A B. destruct A as [u A U|u A U|s v A R|s v A N R|s l ts vs A I P F E]; inversion B as [u' A' U'|u' A' U'|s' v' A' R'|s' v' A' N' R'|s' l' ts' vs'' A' I' P' F' E']; subst; try reflexivity; try congruence;
    try (destruct A' as [A'|([A'|A'] & A'')]; congruence); try (destruct A as [A|([A|A] & A'')]; congruence);
    try (pose proof (reads_unique _ _ _ _ R R') as Q; subst; reflexivity); try contradiction.
  - destruct A' as [A'|([A'|A'] & NS)]; try congruence. specialize (OR _ eq_refl U). congruence.
  - destruct A' as [A'|([A'|A'] & NS)]; try congruence. specialize (OR _ eq_refl U). congruence.
  - destruct A as [A|([A|A] & NS)]; try congruence. specialize (OR _ eq_refl U'). congruence.
  - destruct A as [A|([A|A] & NS)]; try congruence. specialize (OR _ eq_refl U'). congruence.
  - rewrite (pieces_unique _ _ _ _ P P') in F. assert (ts = ts') as <-.
    { clear - F F'. revert ts' F'. induction F as [|x t q ts T F IH]; intros ts' F'; inversion F' as [|? t' ? ts'' T' F'']; subst; [reflexivity|]. f_equal; [exact (trimmed_unique _ _ _ T T')|apply IH; exact F'']. }
    eapply each_unique; eassumption.
Qed.
Lemma process_counts o st s st' b n : process_opt o st s = Ok (st', b) -> act o = Count -> counts o st n -> counts o st' (S n).
Proof.
  intros H A C. unfold OptModel.process_opt in H. rewrite A in H. destruct (increment st (dest o)) as [st1|e|f] eqn:I; cbn [bnd] in H; try discriminate. injection H as <- <-.
  unfold counts in *. rewrite (view_increment _ _ _ _ I), seqb_refl. unfold view in C. apply triple in C. destruct C as (C1 & C2 & C3). rewrite C1, C2, C3. destruct n; [reflexivity|]. do 4 f_equal. lia.
Qed.
Lemma process_frame o st s st' b d : process_opt o st s = Ok (st', b) -> d <> dest o -> view st' d = view st d.
Proof.
  intros H N. assert (SE : seqb d (dest o) = false) by (destruct (seqb d (dest o)) eqn:E; [apply seqb_eq in E; contradiction|reflexivity]).
  assert (ST : (do x <- parse_value s o; match x with Some v => Ok (set_value st (dest o) v, true) | None => Ok (st, false) end) = Ok (st', b) -> view st' d = view st d).
  { destruct (parse_value s o) as [[v|]|e|f]; cbn [bnd]; intros Q; try discriminate; injection Q as <- <-; [rewrite view_set, SE|]; reflexivity. }
  unfold OptModel.process_opt in H. destruct (act o); try discriminate; auto.
  - destruct (nullb s); [|auto]. injection H as <- <-. rewrite view_set, SE. reflexivity.
  - destruct (nullb s); [|auto]. injection H as <- <-. rewrite view_set, SE. reflexivity.
  - destruct (is_multi_value s); cbn [negb] in H.
    + destruct (split_ok s 44 true) as (l & P & E). rewrite E in H. cbn [bnd] in H. destruct (append_all_ok _ _ _ _ _ H) as (vs & _ & ->). clear H ST. revert st. induction vs as [|v vs IH]; intros st; [reflexivity|]. cbn [fold_left].
      rewrite IH, view_append, SE. reflexivity.
    + destruct (parse_value s o) as [[v|]|e|f]; cbn [bnd] in H; try discriminate; injection H as <- <-; [rewrite view_append, SE|]; reflexivity.
  - destruct (increment st (dest o)) as [st1|e|f] eqn:I; cbn [bnd] in H; try discriminate. injection H as <- <-. rewrite (view_increment _ _ _ _ I), SE. reflexivity.
Qed.
End S.
