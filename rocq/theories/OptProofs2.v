(** The argument loop follows the reading of the command line. *)
Require Import ZArith List Bool Lia Arith.
From Verif Require Import OptModel OptSpec OptProofs.
Import ListNotations.
Open Scope Z_scope.

Lemma bnd_assoc {A B C} (m : out A) (f : A -> out B) (g : B -> out C) : bnd (bnd m f) g = bnd m (fun a => bnd (f a) g).
Proof. destruct m; reflexivity. Qed.
Lemma bnd_ext {A B} (m : out A) (f g : A -> out B) : (forall a, f a = g a) -> bnd m f = bnd m g.
Proof. intros H. destruct m; cbn; auto. Qed.
Lemma starts_ok s c : starts_with s c = true <-> option_like c s.
Proof.
  unfold option_like. destruct s as [|x r]; cbn; [split; [discriminate|intros (r & E); discriminate]|].
  rewrite Z.eqb_eq. split; [intros ->; eauto|intros (r' & E); injection E; auto].
Qed.
Lemma starts_no s c : starts_with s c = false <-> ~ option_like c s.
Proof. rewrite <- starts_ok. destruct (starts_with s c); split; congruence. Qed.

Section S.
Variable real : type -> str -> Z.
Notation process_opt := (process_opt real).
Notation run_values := (run_values real).
Notation handle_opt := (handle_opt real).
Notation parse_loop := (parse_loop real).

(** One use of an option, and many. *)
Definition use1 (p : parser) (st : vstore) (u : nat * option str) : out vstore :=
  match nth_error (options p) (fst u) with
  | None => Fault BadIndex
  | Some o =>
      match snd u with
      | None => match typ o with TBool => do (st1, _) <- process_opt o st []; Ok st1 | _ => Throw LogicError end
      | Some s => do (st1, _) <- process_opt o st s; Ok st1
      end
  end.
Fixpoint do_uses (p : parser) (st : vstore) (us : list (nat * option str)) : out vstore :=
  match us with [] => Ok st | u :: r => do st1 <- use1 p st u; do_uses p st1 r end.
Lemma do_uses_app p us : forall st vs, do_uses p st (us ++ vs) = bnd (do_uses p st us) (fun st1 => do_uses p st1 vs).
Proof. induction us as [|u us IH]; intros st vs; [reflexivity|]. cbn [app do_uses]. rewrite bnd_assoc. apply bnd_ext. intros st1. apply IH. Qed.

Definition is_append (a : action) : bool := match a with Append => true | _ => false end.
Definition takes_many (p : parser) (i : nat) : bool := match nth_error (options p) i with Some o => is_append (act o) | None => false end.
Notation reads p := (reading (prefix p) (find_opt p) (takes_many p)).

(** ** There is exactly one reading *)
Section R.
Variables (c : Z) (known : list Z -> option nat) (many : nat -> bool).
Notation reading := (reading c known many).
Notation ends := (ends c).
Lemma ends_split (l : list (list Z)) : exists run r, l = run ++ r /\ Forall (fun s => ~ option_like c s) run /\ ends r.
Proof.
  induction l as [|a l (run & r & -> & F & E)]; [exists [], []; repeat split; [constructor|left; reflexivity]|].
  destruct (starts_with a c) eqn:S.
  - exists [], (a :: run ++ r). split; [reflexivity|]. split; [constructor|]. right. exists a, (run ++ r). split; [reflexivity|]. apply starts_ok. exact S.
  - exists (a :: run), r. split; [reflexivity|]. split; [constructor; [apply starts_no; exact S|exact F]|exact E].
Qed.
Lemma reading_total : forall n l, (length l < n)%nat -> exists rs us, reading l rs us.
Proof.
  induction n as [|n IH]; intros l H; [lia|]. destruct l as [|a l]; [exists [], []; constructor|]. cbn [length] in H.
  destruct (starts_with a c) eqn:S.
  2:{ destruct (IH l ltac:(lia)) as (rs & us & X). eexists _, _. eapply r_stray; [apply starts_no; exact S|exact X]. }
  apply starts_ok in S. destruct (cut_ok a) as (v & CT & _). pose proof (trim_ok (extract_opt_name a)) as TR.
  destruct (known (trim_string (extract_opt_name a))) as [i|] eqn:K.
  2:{ destruct (IH l ltac:(lia)) as (rs & us & X). eexists _, _. eapply r_unknown; eassumption. }
  assert (NO : names_option c known a v i) by (split; [exact S|]; eexists _, _; eauto).
  assert (RUN : forall l', (length l' < n)%nat -> exists run r rs us, l' = run ++ r /\ Forall (fun s => ~ option_like c s) run /\ ends r /\ reading r rs us).
  { intros l' Hl. destruct (ends_split l') as (run & r & -> & F & E). rewrite app_length in Hl. destruct (IH r ltac:(lia)) as (rs & us & X). exists run, r, rs, us. auto. }
  destruct v as [x|].
  - destruct x as [|y x].
    + destruct l as [|b l]; [eexists _, _; eapply r_dangling; exact NO|]. cbn [length] in H. destruct (RUN l ltac:(lia)) as (run & r & rs & us & -> & F & E & X).
      eexists _, _. eapply r_next; try eassumption. right. reflexivity.
    + destruct (RUN l ltac:(lia)) as (run & r & rs & us & -> & F & E & X). eexists _, _. eapply r_inline; try eassumption. discriminate.
  - destruct l as [|b l].
    + eexists _, _. eapply r_flag; [exact NO|left; reflexivity|constructor].
    + destruct (starts_with b c) eqn:SB.
      * destruct (IH (b :: l) ltac:(lia)) as (rs & us & X). eexists _, _. eapply r_flag; [exact NO| |exact X]. right. exists b, l. split; [reflexivity|apply starts_ok; exact SB].
      * cbn [length] in H. destruct (RUN l ltac:(lia)) as (run & r & rs & us & -> & F & E & X). eexists _, _. eapply r_next; try eassumption. left. split; [reflexivity|apply starts_no; exact SB].
Qed.
Lemma names_unique a v i v' i' : names_option c known a v i -> names_option c known a v' i' -> v = v' /\ i = i'.
Proof.
  intros (_ & n & t & C1 & T1 & K1) (_ & n' & t' & C2 & T2 & K2). destruct (cut_unique _ _ _ _ _ C1 C2) as (<- & <-).
  rewrite (trimmed_unique _ _ _ T1 T2) in K1. split; congruence.
Qed.
Lemma names_known a n v t i v' : cut a n v -> trimmed n t -> known t = None -> names_option c known a v' i -> False.
Proof.
  intros C1 T1 K1 (_ & n' & t' & C2 & T2 & K2). destruct (cut_unique _ _ _ _ _ C1 C2) as (<- & <-). rewrite (trimmed_unique _ _ _ T1 T2) in K1. congruence.
Qed.
Lemma run_unique : forall run run' r r' : list (list Z), run ++ r = run' ++ r' -> Forall (fun s => ~ option_like c s) run -> Forall (fun s => ~ option_like c s) run' -> ends r -> ends r' -> run = run' /\ r = r'.
Proof.
  assert (A : forall a run (r : list (list Z)), ends (a :: run ++ r) -> ~ option_like c a -> False).
  { intros a run r [E|(b & q & E & O)] N; [discriminate|]. injection E as -> _. contradiction. }
  induction run as [|a run IH]; intros [|b run'] r r' E F F' EN EN'; cbn in E; subst; try (inversion F; inversion F'; subst).
  - auto.
  - exfalso. eapply A; eassumption.
  - exfalso. eapply A; eassumption.
  - injection E as -> E. destruct (IH run' r r' E) as (-> & ->); auto.
Qed.
Lemma names_like a v i : names_option c known a v i -> option_like c a.
Proof. intros (H & _). exact H. Qed.
Lemma ends_like a l : ends (a :: l) -> option_like c a.
Proof. intros [E|(b & q & E & O)]; [discriminate|]. injection E as -> _. exact O. Qed.
Ltac clash :=
  match goal with
  | N : ~ option_like c ?a, O : option_like c ?a |- _ => destruct (N O)
  | N : ~ option_like c ?a, O : names_option c known ?a _ _ |- _ => destruct (N (names_like _ _ _ O))
  | N : ~ option_like c ?a, O : ends (?a :: _) |- _ => destruct (N (ends_like _ _ O))
  | C1 : cut ?a _ _, T1 : trimmed _ _, K1 : known _ = None, O : names_option c known ?a _ _ |- _ => destruct (names_known _ _ _ _ _ _ C1 T1 K1 O)
  | A : names_option c known ?a _ _, B : names_option c known ?a _ _ |- _ => destruct (names_unique _ _ _ _ _ A B) as (? & ?); clear B; subst; try congruence
  | V : _ \/ _ |- _ => destruct V as [(? & ?)|?]; subst; try congruence
  | E : Some _ = Some _ |- _ => injection E as E; subst
  end.
Lemma reading_unique l rs us : reading l rs us -> forall rs' us', reading l rs' us' -> rs = rs' /\ us = us'.
Proof.
  induction 1 as [|a r rs us N H IH|a n v t r rs us O C1 T1 K1 H IH|a i r rs us NO EN H IH|a x i run r rs us NO NX F EN H IH|a v x i run r rs us NO V F EN H IH|a i NO]; intros rs' us' R'.
  all: inversion R'; subst; clear R'; repeat clash.
  all: try (match goal with
  | E : _ ++ _ = _ ++ _ |- _ => eapply run_unique in E; [|eassumption..]; destruct E as (? & ?); subst
  end).
  all: try clear H.
  all: try (match goal with X : reading _ ?q _ |- context [?q] => destruct (IH _ _ X) as (? & ?); subst end).
  all: auto.
Qed.
Lemma reading_length l rs us : reading l rs us -> length rs = length l.
Proof. induction 1; cbn [length]; rewrite ?app_length, ?map_length; lia. Qed.
End R.

(** ** The loop *)
Lemma neither_app rs : forall k rs', neither k (rs ++ rs') = neither k rs ++ neither (k + length rs) rs'.
Proof.
  induction rs as [|x rs IH]; intros k rs'; cbn [app neither length]; [rewrite Nat.add_0_r; reflexivity|].
  replace (k + S (length rs))%nat with (S k + length rs)%nat by lia. destruct x; rewrite IH; reflexivity.
Qed.
Lemma neither_vals {A} (l : list A) : forall k, neither k (map (fun _ => Val) l) = [].
Proof. induction l; intros k; [reflexivity|]. cbn. apply IHl. Qed.
Lemma neither_none {A} (l : list A) : forall k, neither k (map (fun _ => Neither) l) = seq k (length l).
Proof. induction l; intros k; [reflexivity|]. cbn. rewrite IHl. reflexivity. Qed.

Lemma cut_model2 s nm v : cut s nm v -> extract_opt_name s = nm /\ extract_opt_value s = match v with Some x => x | None => [] end /\
  match find [61] s 0 with Some _ => true | None => false end = match v with Some _ => true | None => false end.
Proof.
  intros C. destruct (cut_model _ _ _ C) as (A & B). split; [exact A|]. split; [exact B|]. destruct (cut_ok s) as (v' & C' & _ & E). destruct (cut_unique _ _ _ _ _ C C') as (_ & ->).
  destruct (find [61] s 0), v'; try reflexivity; [destruct E as (_ & E); specialize (E eq_refl)|destruct E as (E & _); specialize (E eq_refl)]; discriminate.
Qed.
Definition mkw (st : vstore) (av : list str) (k : nat) (inv : list nat) : work := {| w_store := st; w_args := {| args := av; it := k |}; w_invalid := inv |}.
Lemma nth_skipn {A} (l : list A) : forall k a r, skipn k l = a :: r -> nth_error l k = Some a /\ skipn (S k) l = r /\ (S k + length r = length l)%nat.
Proof.
  induction l as [|b l IH]; intros [|k] a r; cbn [skipn nth_error length]; intros E; try discriminate.
  - injection E as -> ->. auto.
  - destruct (IH k a r E) as (N & S & L). repeat split; [exact N|exact S|lia].
Qed.
Lemma skipn_end {A} (l : list A) : forall k, (k <= length l)%nat -> skipn k l = [] -> k = length l.
Proof. induction l as [|b l IH]; intros [|k] H E; cbn in *; try lia; try discriminate. f_equal. apply IH; [lia|exact E]. Qed.

Ltac ulia := unfold str in *; cbn [length] in *; try rewrite app_length in *; lia.
Lemma skipn_run {A} (l run r : list A) k : skipn k l = run ++ r -> skipn (k + length run) l = r.
Proof. intros E. rewrite Nat.add_comm, <- skipn_skipn', E, skipn_app, skipn_all, Nat.sub_diag. reflexivity. Qed.
Section Loop.
Variables (p : parser) (n : Z) (av : list str).
Hypothesis FIT : Z.of_nat (length av) < n.

Lemma span_ok i : (i <= length av)%nat -> span_at n i = Ok i.
Proof. intros H. unfold span_at. destruct (Z.ltb_spec (Z.of_nat i) n); [reflexivity|lia]. Qed.
Lemma run_values_ok i o : nth_error (options p) i = Some o ->
  forall run fuel st k inv r, skipn k av = run ++ r -> (k <= length av)%nat -> Forall (fun s => ~ option_like (prefix p) s) run -> ends (prefix p) r -> (length run < fuel)%nat ->
  run_values fuel p n o (mkw st av k inv) =
    (do st1 <- (if takes_many p i then do_uses p st (map (fun s => (i, Some s)) run) else Ok st);
     Ok (mkw st1 av (k + length run) (inv ++ neither (S k) (map (fun _ => if takes_many p i then Val else Neither) run)))).
Proof.
  intros NI. induction run as [|a run IH]; intros fuel st k inv r SK KL F EN FU; (destruct fuel as [|fuel]; [ulia|]).
  - cbn [app] in SK. cbn [map do_uses length neither]. rewrite Nat.add_0_r. 
    transitivity (Ok (mkw st av k inv)); [|rewrite app_nil_r; destruct (takes_many p i); reflexivity].
    destruct EN as [->|(b & q & -> & OL)].
    + pose proof (skipn_end _ _ KL SK) as ->. cbn. unfold empty. cbn. rewrite Nat.eqb_refl. reflexivity.
    + destruct (nth_skipn _ _ _ _ SK) as (NB & _ & L). cbn [OptModel.run_values]. unfold empty, peek, mkw. cbn [w_args it args]. destruct (Nat.eqb_spec k (length av)) as [E|_]; [lia|].
      rewrite NB. cbn [bnd]. apply starts_ok in OL. rewrite OL. reflexivity.
  - cbn [app] in SK. destruct (nth_skipn _ _ _ _ SK) as (NB & SK' & L). inversion F as [|? ? NA F']; subst. apply starts_no in NA.
    cbn [OptModel.run_values]. unfold empty, pop, peek, mkw. cbn [w_args it args]. destruct (Nat.eqb_spec k (length av)) as [E|_]; [lia|].
    rewrite NB. cbn [bnd]. rewrite NA. cbn [bnd]. rewrite app_length in L.
    assert (TM : takes_many p i = is_append (act o)) by (unfold takes_many; rewrite NI; reflexivity).
    pose proof (fun st inv => IH fuel st (S k) inv r SK' ltac:(ulia) F' EN ltac:(ulia)) as IH'. clear IH. rewrite TM in *. unfold mkw in *.
    destruct (act o); cbn [is_append] in *;
      try (unfold pos; cbn [it w_store w_invalid]; rewrite span_ok by ulia; cbn [bnd]; rewrite IH'; cbn [bnd length map neither]; rewrite <- app_assoc; cbn [app]; rewrite <- (Nat.add_succ_comm k); reflexivity).
    cbn [w_store w_invalid]. cbn [map do_uses]. rewrite bnd_assoc. unfold use1 at 1. cbn [fst snd]. rewrite NI. rewrite bnd_assoc. apply bnd_ext. intros (st1, b). cbn [bnd].
    rewrite IH'. apply bnd_ext. intros st2. cbn [map neither length]. do 2 f_equal. f_equal. lia.
Qed.

Hypothesis MAPS : forall t i, find_opt p t = Some i -> (i < length (options p))%nat.

Lemma loop_ok rest rs us : reads p rest rs us ->
  forall fuel st k inv, skipn k av = rest -> (k <= length av)%nat -> (length rest < fuel)%nat ->
  parse_loop fuel p n (mkw st av k inv) = (do st1 <- do_uses p st us; Ok (mkw st1 av (length av) (inv ++ neither (S k) rs))).
Proof.
  assert (HEAD : forall a r k, skipn k av = a :: r -> (k =? length av)%nat = false /\ nth_error av k = Some a /\ skipn (S k) av = r /\ (S k + length r = length av)%nat).
  { intros a r k SK. destruct (nth_skipn _ _ _ _ SK) as (NB & SK' & L). split; [|auto]. apply Nat.eqb_neq. lia. }
  assert (TYPE : forall a, option_like (prefix p) a -> extract_arg_type p a <> InvalidOpt).
  { intros a O. unfold extract_arg_type. apply starts_ok in O. rewrite O. cbn. destruct (prefixb (long_prefix p) a); discriminate. }
  assert (OPT : forall fuel st k inv a r, skipn k av = a :: r -> option_like (prefix p) a ->
     parse_loop (S fuel) p n (mkw st av k inv) =
       (do (w1, ok) <- handle_opt p n (mkw st av k inv);
        if ok : bool then parse_loop fuel p n w1
          else do i <- span_at n (pos (w_args w1));
               parse_loop fuel p n {| w_store := w_store w1; w_args := w_args w1; w_invalid := w_invalid w1 ++ [i] |})).
  { intros fuel st k inv a r SK O. destruct (HEAD _ _ _ SK) as (K & NB & _). cbn [OptModel.parse_loop]. unfold empty, peek. cbn [w_args mkw it args]. rewrite K, NB. cbn [bnd].
    specialize (TYPE a O). destruct (extract_arg_type p a); [reflexivity|reflexivity|congruence]. }
  assert (GOT : forall a v i, names_option (prefix p) (find_opt p) a v i ->
     find_opt p (trim_string (extract_opt_name a)) = Some i /\ extract_opt_value a = match v with Some x => x | None => [] end /\
     (match find [61] a 0 with Some _ => true | None => false end = match v with Some _ => true | None => false end) /\ exists o, nth_error (options p) i = Some o).
  { intros a v i (_ & nm & t & C & T & K). destruct (cut_model2 _ _ _ C) as (E1 & E2 & E3). rewrite E1. rewrite (trim_is _ _ T). split; [exact K|]. split; [exact E2|]. split; [exact E3|].
    pose proof (MAPS _ _ K) as L. apply nth_error_Some in L. destruct (nth_error (options p) i); [eauto|congruence]. }
  induction 1 as [|a r rs us N H IH|a nm v t r rs us O C1 T1 K1 H IH|a i r rs us NO EN H IH|a x i run r rs us NO NX F EN H IH|a v x i run r rs us NO V F EN H IH|a i NO];
    intros fuel st k inv SK KL FU; (destruct fuel as [|fuel]; [ulia|]).
  - pose proof (skipn_end _ _ KL SK) as ->. cbn. unfold empty. cbn. rewrite Nat.eqb_refl, app_nil_r. reflexivity.
  - destruct (HEAD _ _ _ SK) as (K & NB & SK' & L). cbn [OptModel.parse_loop]. unfold empty, pop, peek. cbn [w_args mkw it args]. rewrite K, NB. cbn [bnd].
    unfold extract_arg_type. apply starts_no in N. rewrite N. cbn [negb]. unfold pos. cbn [it w_store w_invalid]. rewrite span_ok by ulia. cbn [bnd].
    cbn [w_store w_invalid mkw]; fold (mkw st av (S k) (inv ++ [S k])). rewrite IH; [|exact SK'|ulia|ulia]. cbn [neither]. rewrite <- app_assoc. reflexivity.
  - destruct (HEAD _ _ _ SK) as (K & NB & SK' & L). rewrite (OPT _ _ _ _ _ _ SK O). unfold OptModel.handle_opt, empty, pop, peek. cbn [w_args mkw it args]. rewrite K, NB. cbn [bnd].
    destruct (cut_model2 _ _ _ C1) as (E1 & E2 & E3). rewrite E1, (trim_is _ _ T1), K1. cbn [bnd w_args pos it]. unfold pos. cbn [it w_store w_args w_invalid]. rewrite span_ok by ulia. cbn [bnd].
    cbn [w_store w_invalid mkw]; fold (mkw st av (S k) (inv ++ [S k])). rewrite IH; [|exact SK'|ulia|ulia]. cbn [neither]. rewrite <- app_assoc. reflexivity.
  - destruct (HEAD _ _ _ SK) as (K & NB & SK' & L). rewrite (OPT _ _ _ _ _ _ SK (names_like _ _ _ _ _ NO)). destruct (GOT _ _ _ NO) as (G1 & G2 & G3 & o & G4).
    unfold OptModel.handle_opt, empty, pop, peek. cbn [w_args mkw it args]. rewrite K, NB. cbn [bnd]. rewrite G1, G4. unfold has_value_to_process. destruct (find [61] a 0); [discriminate|].
    assert (HV : (if empty {| args := av; it := S k |} then Ok false else do s <- peek {| args := av; it := S k |}; Ok (negb (starts_with s (prefix p)))) = Ok false).
    { unfold empty, peek. cbn [it args]. destruct EN as [->|(b & q & -> & OL)].
      - cbn in L. replace (length av) with (S k) by ulia. rewrite Nat.eqb_refl. reflexivity.
      - destruct (HEAD _ _ _ SK') as (K' & NB' & _). rewrite K', NB'. cbn. apply starts_ok in OL. rewrite OL. reflexivity. }
    rewrite HV. cbn [bnd negb]. cbn [do_uses]. unfold use1 at 1. cbn [fst snd]. rewrite G4. destruct (typ o); try reflexivity.
    cbn [w_store w_invalid]. rewrite !bnd_assoc. apply bnd_ext. intros (st1, b). cbn [bnd]. cbn [w_store w_invalid mkw]; fold (mkw st1 av (S k) inv). rewrite IH; [reflexivity|exact SK'|ulia|ulia].
  - destruct (HEAD _ _ _ SK) as (K & NB & SK' & L). rewrite (OPT _ _ _ _ _ _ SK (names_like _ _ _ _ _ NO)). destruct (GOT _ _ _ NO) as (G1 & G2 & G3 & o & G4).
    unfold OptModel.handle_opt, empty, pop, peek. cbn [w_args mkw it args]. rewrite K, NB. cbn [bnd]. rewrite G1, G4. unfold has_value_to_process. destruct (find [61] a 0); [|discriminate]. cbn [bnd negb].
    rewrite G2. destruct x as [|y x]; [congruence|]. cbn [w_store w_invalid args]. rewrite app_length in L.
    cbn [do_uses]. unfold use1 at 1. cbn [fst snd]. rewrite G4. rewrite !bnd_assoc. apply bnd_ext. intros (st1, b). cbn [bnd]. cbn [w_store w_invalid mkw]; fold (mkw st1 av (S k) inv).
    rewrite (run_values_ok i o G4 run _ st1 (S k) inv r SK' ltac:(ulia) F EN) by (ulia).
    rewrite !bnd_assoc.
    assert (SK2 : skipn (S k + length run) av = r). { apply skipn_run. exact SK'. }
    assert (TAIL : forall st2, parse_loop fuel p n (mkw st2 av (S k + length run) (inv ++ neither (S (S k)) (map (fun _ : list Z => if takes_many p i then Val else Neither) run))) =
      (do st3 <- do_uses p st2 us; Ok (mkw st3 av (length av) (inv ++ neither (S k) (Opt :: map (fun _ : list Z => if takes_many p i then Val else Neither) run ++ rs))))).
    { intros st2. rewrite IH; [|exact SK2|ulia|ulia]. cbn [neither]. rewrite neither_app, map_length, <- app_assoc. reflexivity. }
    destruct (takes_many p i).
    + rewrite do_uses_app, bnd_assoc. apply bnd_ext. intros st2. cbn [bnd]. apply TAIL.
    + cbn [bnd app]. apply TAIL.
  - destruct (HEAD _ _ _ SK) as (K & NB & SK' & L). rewrite (OPT _ _ _ _ _ _ SK (names_like _ _ _ _ _ NO)). destruct (GOT _ _ _ NO) as (G1 & G2 & G3 & o & G4).
    destruct (HEAD _ _ _ SK') as (K' & NB' & SK'' & L'). rewrite app_length in L'.
    unfold OptModel.handle_opt, empty, pop, peek. cbn [w_args mkw it args]. rewrite K, NB. cbn [bnd]. rewrite G1, G4.
    assert (HV : has_value_to_process p a {| args := av; it := S k |} = Ok true).
    { unfold has_value_to_process, empty, peek. cbn [it args]. destruct V as [(-> & NL)| ->]; destruct (find [61] a 0); try reflexivity; try discriminate. rewrite K', NB'. cbn. apply starts_no in NL. rewrite NL. reflexivity. }
    rewrite HV. cbn [bnd negb]. assert (G2' : extract_opt_value a = []) by (rewrite G2; destruct V as [(-> & _)| ->]; reflexivity). rewrite G2'. cbn [it args].
    rewrite K', NB'. cbn [bnd w_store w_invalid args it].
    cbn [do_uses]. unfold use1 at 1. cbn [fst snd]. rewrite G4. rewrite !bnd_assoc. apply bnd_ext. intros (st1, b). cbn [bnd]. cbn [w_store w_invalid mkw]; fold (mkw st1 av (S (S k)) inv).
    rewrite (run_values_ok i o G4 run _ st1 (S (S k)) inv r SK'' ltac:(ulia) F EN) by (ulia).
    rewrite !bnd_assoc.
    assert (SK2 : skipn (S (S k) + length run) av = r). { apply skipn_run. exact SK''. }
    assert (TAIL : forall st2, parse_loop fuel p n (mkw st2 av (S (S k) + length run) (inv ++ neither (S (S (S k))) (map (fun _ : list Z => if takes_many p i then Val else Neither) run))) =
      (do st3 <- do_uses p st2 us; Ok (mkw st3 av (length av) (inv ++ neither (S k) (Opt :: Val :: map (fun _ : list Z => if takes_many p i then Val else Neither) run ++ rs))))).
    { intros st2. rewrite IH; [|exact SK2|ulia|ulia]. cbn [neither]. rewrite neither_app, map_length, <- app_assoc. reflexivity. }
    destruct (takes_many p i).
    + rewrite do_uses_app, bnd_assoc. apply bnd_ext. intros st2. cbn [bnd]. apply TAIL.
    + cbn [bnd app]. apply TAIL.
  - destruct (HEAD _ _ _ SK) as (K & NB & SK' & L). rewrite (OPT _ _ _ _ _ _ SK (names_like _ _ _ _ _ NO)). destruct (GOT _ _ _ NO) as (G1 & G2 & G3 & o & G4).
    unfold OptModel.handle_opt, empty, pop, peek. cbn [w_args mkw it args]. rewrite K, NB. cbn [bnd]. rewrite G1, G4. unfold has_value_to_process. destruct (find [61] a 0); [|discriminate]. cbn [bnd negb].
    rewrite G2. cbn [length] in L. cbn [it args]. assert (LA : length av = S k) by ulia. rewrite LA, Nat.eqb_refl. cbn [bnd w_args w_store w_invalid]. unfold pos. cbn [it]. rewrite span_ok by ulia. cbn [bnd do_uses].
    destruct fuel as [|fuel]; [ulia|]. cbn [OptModel.parse_loop]. unfold empty. cbn [w_args it args]. rewrite LA, Nat.eqb_refl. reflexivity.
Qed.
End Loop.
End S.
