(** Calls on a ValueStore, and user_set after parse_args. *)
Require Import ZArith List Bool Lia.
From Verif Require Import OptModel OptModel2 OptSpec OptSpec2 OptProofs OptProofs2 OptProofs3 OptProofs4 OptProofs5 OptStoreModel OptStoreSpec.
Import ListNotations.
Open Scope Z_scope.

Lemma push_all_app vs : forall l, push_all l vs = l ++ vs.
Proof. induction vs as [|v vs IH]; intros l; cbn [push_all]; [rewrite app_nil_r; reflexivity|]. rewrite IH, <- app_assoc. reflexivity. Qed.
Lemma view_list st k vs d : view (append_list st k vs) d =
  if seqb d k then (get st d, Some (match get_list st k with None => vs | Some l => l ++ vs end), true) else view st d.
Proof.
  unfold view, get, get_list, user_set, append_list, member. cbn [values lists usr_set existsb]. rewrite lookup_put. destruct (seqb d k); [|reflexivity].
  destruct (lookup k (lists st)); [rewrite push_all_app|]; reflexivity.
Qed.
Definition key_of (c : scall) : str := match c with SSet k _ | SAppend k _ | SAppendList k _ | SIncrement k => k end.
Lemma other_view st c st' k : do_scall st c = Ok st' -> key_of c <> k -> view st' k = view st k.
Proof.
  assert (N : forall a, a <> k -> seqb k a = false) by (intros a A; apply seqb_neq; congruence).
  destruct c as [a v|a v|a vs|a]; cbn [do_scall key_of]; intros H A; try (injection H as <-).
  - rewrite view_set, (N _ A). reflexivity.
  - rewrite view_append, (N _ A). reflexivity.
  - rewrite view_list, (N _ A). reflexivity.
  - unfold increment in H. unfold view, get, get_list, user_set. destruct (lookup a (values st)) as [[]|]; try discriminate.
    + destruct (_ <? _); [|discriminate]. injection H as <-. cbn [values lists usr_set]. rewrite lookup_put, (N _ A). reflexivity.
    + injection H as <-. cbn [values lists usr_set]. rewrite lookup_put, (N _ A). reflexivity.
Qed.

(** What a call does to its own key. *)
Lemma increment_view st k st' : increment st k = Ok st' ->
  (get st k = None /\ get st' k = Some (VInt 1) \/ exists n, get st k = Some (VInt n) /\ n + 1 < 2 ^ 31 /\ get st' k = Some (VInt (n + 1))) /\
  get_list st' k = get_list st k /\ user_set st' k = user_set st k.
Proof.
  unfold increment, get, get_list, user_set. destruct (lookup k (values st)) as [[]|] eqn:E; try discriminate.
  - destruct (_ <? _) eqn:L; [|discriminate]. intros H. injection H as <-. cbn [values lists usr_set]. rewrite lookup_put, seqb_refl. split; [|split; reflexivity]. right. exists n. apply Z.ltb_lt in L. auto.
  - intros H. injection H as <-. cbn [values lists usr_set]. rewrite lookup_put, seqb_refl. split; [|split; reflexivity]. left. auto.
Qed.

(** Appending one call at the end of a history. *)
Lemma counted_snoc k l n c : counted k l n -> counted k (l ++ [c]) (n + (if match c with SIncrement a => seqb k a | _ => false end then 1 else 0)).
Proof.
  induction 1 as [|l n C IH|a l n N C IH]; cbn [app].
  - destruct (match c with SIncrement a => seqb k a | _ => false end) eqn:E.
    + destruct c; try discriminate. apply seqb_eq in E. subst. apply cn_this. constructor.
    + apply cn_other; [|constructor]. intros ->. rewrite seqb_refl in E. discriminate.
  - replace (n + 1 + _) with (n + (if match c with SIncrement a => seqb k a | _ => false end then 1 else 0) + 1) by lia. apply cn_this. exact IH.
  - apply cn_other; assumption.
Qed.
Lemma counted_nonneg k l n : counted k l n -> 0 <= n. Proof. induction 1; lia. Qed.
Lemma nosets_snoc k l c : (forall x, In x l -> ~ sets k x) -> ~ sets k c -> forall x, In x (l ++ [c]) -> ~ sets k x.
Proof. intros A B x I. apply in_app_or in I. destruct I as [I|[<-|[]]]; auto. Qed.
(** A call that is neither set nor increment of [k]. *)
Lemma value_other k l v c : value_of k l v -> ~ sets k c -> c <> SIncrement k -> value_of k (l ++ [c]) v.
Proof.
  assert (Z : forall l n, counted k l n -> c <> SIncrement k -> counted k (l ++ [c]) n).
  { intros l0 n C N. pose proof (counted_snoc k l0 n c C) as X. replace (n + _) with n in X; [exact X|]. destruct c; cbn; try lia. destruct (seqb k k0) eqn:E; [apply seqb_eq in E; subst; congruence|lia]. }
  intros [A C|n A C P|l1 u l2 -> A C|l1 m l2 n -> A C P] NS NI.
  - apply vo_none; [apply nosets_snoc; assumption|auto].
  - apply vo_counted; [apply nosets_snoc; assumption|auto|exact P].
  - eapply vo_set; [rewrite <- app_assoc; reflexivity|apply nosets_snoc; assumption|auto].
  - eapply vo_more; [rewrite <- app_assoc; reflexivity|apply nosets_snoc; assumption|auto|exact P].
Qed.
Lemma no_set k : ~ sets k (SIncrement k). Proof. intros (v & [=]). Qed.
Lemma value_counted k l v n : value_of k l v -> v = None /\ n = 1 \/ (exists m, v = Some (VInt m) /\ n = m + 1) -> value_of k (l ++ [SIncrement k]) (Some (VInt n)).
Proof.
  assert (Z : forall l n, counted k l n -> counted k (l ++ [SIncrement k]) (n + 1)).
  { intros l0 j C. pose proof (counted_snoc k l0 j (SIncrement k) C) as X. cbn in X. rewrite seqb_refl in X. exact X. }
  intros [A C|i A C P|l1 u l2 -> A C|l1 i l2 j -> A C P] [(E & ->)|(m & E & ->)]; try discriminate.
  - apply vo_counted; [apply nosets_snoc; [assumption|apply no_set]|exact (Z _ _ C)|lia].
  - injection E as <-. apply vo_counted; [apply nosets_snoc; [assumption|apply no_set]|exact (Z _ _ C)|lia].
  - injection E as ->. eapply vo_more; [rewrite <- app_assoc; reflexivity|apply nosets_snoc; [assumption|apply no_set]|exact (Z _ _ C)|lia].
  - injection E as <-. rewrite <- Z.add_assoc. eapply vo_more; [rewrite <- app_assoc; reflexivity|apply nosets_snoc; [assumption|apply no_set]|exact (Z _ _ C)|lia].
Qed.
Lemma list_snoc k l vs c us : list_of k l vs -> list_of k [c] us -> list_of k (l ++ [c]) (vs ++ us).
Proof.
  intros L U. induction L; cbn [app]; [exact U|apply lo_one; assumption| |apply lo_other; assumption]. rewrite <- app_assoc. apply lo_list. assumption.
Qed.

(** What is kept by the calls: everything a history says about the store. *)
Definition told (st : vstore) (l : list scall) : Prop := forall k,
  value_of k l (get st k) /\
  (exists vs, list_of k l vs /\ (get_list st k = Some vs /\ (exists c, In c l /\ appends k c) \/ get_list st k = None /\ forall c, In c l -> ~ appends k c)) /\
  (user_set st k = true <-> exists c, In c l /\ (sets k c \/ appends k c)).
Lemma view_eq st st' k : view st' k = view st k -> get st' k = get st k /\ get_list st' k = get_list st k /\ user_set st' k = user_set st k.
Proof. unfold view. intros H. apply triple in H. exact H. Qed.
Lemma in_snoc {A} (P : A -> Prop) l c : (exists x, In x (l ++ [c]) /\ P x) <-> (exists x, In x l /\ P x) \/ P c.
Proof.
  split.
  - intros (x & I & p). apply in_app_or in I. destruct I as [I|[<-|[]]]; [left; eauto|right; exact p].
  - intros [(x & I & p)|p]; [exists x|exists c]; (split; [apply in_or_app|exact p]); [left; exact I|right; left; reflexivity].
Qed.
Lemma told_step st l c st' : told st l -> do_scall st c = Ok st' -> told st' (l ++ [c]).
Proof.
  intros T H k. destruct (T k) as (TV & (vs & TL & TL') & TU). destruct (list_eq_dec Z.eq_dec (key_of c) k) as [E|E].
  - assert (R : seqb k k = true) by apply seqb_refl. destruct c as [a v|a v|a us|a]; cbn [key_of do_scall] in *; subst a; try (injection H as <-).
    + pose proof (view_set st k v k) as V. rewrite R in V. unfold view in V. apply triple in V. destruct V as (-> & -> & ->). split; [|split].
      * eapply vo_set; [reflexivity|intros c []|constructor].
      * exists (vs ++ []). split; [apply list_snoc; [exact TL|]; apply lo_other; [intros [(x & [=])|(x & [=])]|constructor]|]. rewrite app_nil_r.
        destruct TL' as [(G & Ex)|(G & No)]; [left|right]; (split; [exact G|]); [apply in_snoc; left; exact Ex|]. intros c I. apply in_app_or in I. destruct I as [I|[<-|[]]]; [auto|]. intros [(x & [=])|(x & [=])].
      * split; [|reflexivity]. intros _. apply in_snoc. right. left. eexists. reflexivity.
    + pose proof (view_append st k v k) as V. rewrite R in V. unfold view in V. apply triple in V. destruct V as (-> & -> & ->). split; [|split].
      * apply value_other; [exact TV|intros (x & [=])|discriminate].
      * exists (vs ++ [v]). split; [apply list_snoc; [exact TL|]; apply lo_one; constructor|]. left. split.
        -- destruct TL' as [(G & _)|(G & No)]; rewrite G; [reflexivity|]. replace vs with (@nil value); [reflexivity|]. clear - TL No. induction TL; [reflexivity| | |apply IHTL; intros; apply No; right; assumption]; exfalso; apply (No _ (or_introl eq_refl)); [left|right]; eexists; reflexivity.
        -- apply in_snoc. right. left. eexists. reflexivity.
      * split; [|reflexivity]. intros _. apply in_snoc. right. right. left. eexists. reflexivity.
    + pose proof (view_list st k us k) as V. rewrite R in V. unfold view in V. apply triple in V. destruct V as (-> & -> & ->). split; [|split].
      * apply value_other; [exact TV|intros (x & [=])|discriminate].
      * exists (vs ++ us). split; [apply list_snoc; [exact TL|]; replace us with (us ++ []) at 2 by apply app_nil_r; apply lo_list; constructor|]. left. split.
        -- destruct TL' as [(G & _)|(G & No)]; rewrite G; [reflexivity|]. replace vs with (@nil value); [reflexivity|]. clear - TL No. induction TL; [reflexivity| | |apply IHTL; intros; apply No; right; assumption]; exfalso; apply (No _ (or_introl eq_refl)); [left|right]; eexists; reflexivity.
        -- apply in_snoc. right. right. eexists. reflexivity.
      * split; [|reflexivity]. intros _. apply in_snoc. right. right. right. eexists. reflexivity.
    + destruct (increment_view _ _ _ H) as (V & -> & ->). assert (NA : ~ appends k (SIncrement k)) by (intros [(x & [=])|(x & [=])]). split; [|split].
      * destruct V as [(G & G')|(n & G & _ & G')]; rewrite G'; (eapply value_counted; [exact TV|]); [left; auto|right; exists n; auto].
      * exists (vs ++ []). split; [apply list_snoc; [exact TL|]; apply lo_other; [exact NA|constructor]|]. rewrite app_nil_r.
        destruct TL' as [(G & Ex)|(G & No)]; [left|right]; (split; [exact G|]); [apply in_snoc; left; exact Ex|]. intros c I. apply in_app_or in I. destruct I as [I|[<-|[]]]; auto.
      * rewrite TU. rewrite in_snoc. split; [auto|]. intros [X|[(v & [=])|X]]; [exact X|contradiction].
  - destruct (view_eq _ _ _ (other_view _ _ _ _ H E)) as (-> & -> & ->).
    assert (NS : ~ sets k c) by (intros (v & ->); cbn in E; congruence). assert (NA : ~ appends k c) by (intros [(v & ->)|(v & ->)]; cbn in E; congruence). split; [|split].
    + apply value_other; [exact TV|exact NS|]. intros ->. cbn in E. congruence.
    + exists (vs ++ []). split; [apply list_snoc; [exact TL|]; apply lo_other; [exact NA|constructor]|]. rewrite app_nil_r.
      destruct TL' as [(G & Ex)|(G & No)]; [left|right]; (split; [exact G|]); [apply in_snoc; left; exact Ex|]. intros x I. apply in_app_or in I. destruct I as [I|[<-|[]]]; auto.
    + rewrite TU, in_snoc. split; [auto|]. intros [X|[X|X]]; [exact X|contradiction|contradiction].
Qed.
Lemma told_empty : told empty_store [].
Proof.
  intros k. split; [apply vo_none; [intros c []|constructor]|]. split.
  - exists []. split; [constructor|]. right. split; [reflexivity|intros c []].
  - split; [discriminate|]. intros (c & [] & _).
Qed.
Lemma told_perform l : forall st d0 st' d, told st d0 -> perform st l = Ok (st', d) -> told st' (d0 ++ d).
Proof.
  induction l as [|c l IH]; intros st d0 st' d T; cbn [perform].
  - intros [= <- <-]. rewrite app_nil_r. exact T.
  - destruct (do_scall st c) as [st1|e|f] eqn:E; [|apply IH; exact T|discriminate]. destruct (perform st1 l) as [(st2, d1)|e|f] eqn:P; cbn [bnd]; try discriminate. intros [= <- <-].
    change (c :: d1) with ([c] ++ d1). rewrite app_assoc. eapply IH; [|exact P]. eapply told_step; eassumption.
Qed.
(** The value and the list are determined by the calls. *)
Lemma counted_fun k l n : counted k l n -> forall m, counted k l m -> n = m.
Proof. induction 1 as [|l n C IH|c l n N C IH]; intros m M; inversion M; subst; try congruence; [f_equal; auto|auto]. Qed.
Lemma last_split k l1 v l2 l1' v' l2' : l1 ++ SSet k v :: l2 = l1' ++ SSet k v' :: l2' -> (forall c, In c l2 -> ~ sets k c) -> (forall c, In c l2' -> ~ sets k c) -> v = v' /\ l2 = l2'.
Proof.
  revert l1'. induction l1 as [|a l1 IH]; intros [|a' l1'] E A A'; cbn [app] in E.
  - injection E as -> ->. auto.
  - injection E as <- ->. exfalso. apply (A (SSet k v')); [apply in_or_app; right; left; reflexivity|eexists; reflexivity].
  - injection E as -> <-. exfalso. apply (A' (SSet k v)); [apply in_or_app; right; left; reflexivity|eexists; reflexivity].
  - injection E as _ E. exact (IH _ E A A').
Qed.
Lemma value_fun k l v w : value_of k l v -> value_of k l w -> v = w.
Proof.
  assert (X : forall l1 u l2, (forall c, In c (l1 ++ SSet k u :: l2) -> ~ sets k c) -> False) by (intros l1 u l2 A; apply (A (SSet k u)); [apply in_or_app; right; left; reflexivity|eexists; reflexivity]).
  intros [A C|n A C P|l1 u l2 E A C|l1 i l2 j E A C P] [A' C'|n' A' C' P'|l1' u' l2' E' A' C'|l1' i' l2' j' E' A' C' P']; subst; try (exfalso; eapply X; eassumption); try reflexivity;
    try (pose proof (counted_fun _ _ _ C _ C'); subst; (lia || reflexivity)); destruct (last_split _ _ _ _ _ _ _ E' A' A) as (Q & R) || destruct (last_split _ _ _ _ _ _ _ E' A A') as (Q & R); subst; pose proof (counted_fun _ _ _ C _ C'); subst; try lia; congruence.
Qed.
Lemma list_fun k l v : list_of k l v -> forall w, list_of k l w -> v = w.
Proof.
  induction 1 as [|a l vs L IH|us l vs L IH|c l vs N L IH]; intros w W; inversion W; subst; try reflexivity; try (f_equal; auto; fail); try auto.
  all: exfalso; match goal with X : ~ appends _ _ |- _ => apply X end; unfold appends; eauto.
Qed.

(** ** After parse_args *)
Section S.
Variables (real : type -> str -> Z) (getenv : str -> option str).
Notation parse_args := (parse_args real getenv).
Notation reads p := (reading (prefix p) (find_opt p) (takes_many p)).
Lemma parse_marks p argv p' st i o : good p -> Z.of_nat (length argv) < 2 ^ 31 -> parse_args p argv = Ok (p', st) -> nth_error (options p') i = Some o -> alone (options p') i ->
  exists rs us, reads p' (tl argv) rs us /\
   (act o <> Count -> exists vss dv ev, Forall2 (gives real o) (uses_of i us) vss /\
      (concat vss = [] -> gives_opt real o (default_text o) dv) /\ (concat vss = [] -> dv = [] -> gives_opt real o (env_text getenv o) ev) /\
      shows o st (match concat vss with [] => match dv with [] => ev | _ => dv end | l => l end)) /\
   (act o = Count -> counts o st (length (uses_of i us) + (match default_text o with Some _ => 1 | None => 0 end) + (match env_text getenv o with Some _ => 1 | None => 0 end))).
Proof.
  intros G L H N AL. destruct (parse_args_ok _ _ _ _ _ _ G L H) as (a0 & av & p3 & rs & us & st0 & st1 & -> & PR & -> & R & E0 & E1 & E2). cbn [options with_invalid] in N, AL.
  exists rs, us. split; [exact R|]. destruct (uses_has real p3 i o N AL us _ _ E0) as (U1 & U2). destruct (defaults_has real _ _ _ _ _ N AL E1) as (D1 & D2). destruct (env_has real getenv _ _ _ _ _ N AL E2) as (V1 & V2). split.
  - intros A. destruct (U1 A) as (vss & F & SH). assert (S0 : shows o empty_store []) by (split; [unfold has; destruct (act o); split; reflexivity|reflexivity]). specialize (SH [] S0). cbn [app] in SH.
    destruct (D1 A _ SH) as [(X & SD)|(X & dv & GD & SD)].
    + exists vss, [], []. split; [exact F|]. split; [contradiction|]. split; [contradiction|]. destruct (concat vss) as [|x l] eqn:C; [congruence|]. destruct (V1 A _ SD) as [(_ & SE)|(Y & _)]; [exact SE|discriminate].
    + destruct (V1 A _ SD) as [(Y & SE)|(Y & ev & GE & SE)].
      * exists vss, dv, []. split; [exact F|]. split; [auto|]. split; [contradiction|]. rewrite X. destruct dv; [congruence|exact SE].
      * exists vss, dv, ev. split; [exact F|]. split; [auto|]. split; [auto|]. rewrite X, Y. exact SE.
  - intros A. apply (V2 A), (D2 A). apply (U2 A 0%nat). reflexivity.
Qed.
End S.
