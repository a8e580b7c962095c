(** Property C91: the references returned by add_option. *)
Require Import ZArith Bool Lia Arith Ascii String List.
From Verif Require Import Base OptModel OptSpec OptSpec2 OptLifeModel OptLifeSpec OptRefModel OptRefSpec OptRefProofs PropOpt.
From Verif Require VecSpec VecModel.
Import ListNotations.
Open Scope string_scope.
Open Scope list_scope.
Open Scope Z_scope.

Section Props.
Variable sz : Z.
Hypothesis SZ : 64 <= sz <= 131072.
Variables (real : type -> list Z -> Z) (getenv : list Z -> option (list Z)).
Notation rstep := (rstep sz real getenv).
Notation runs := (runs sz real getenv).
Notation sets := (sets sz real getenv).

(** C91: a reference may be used exactly as long as the options do not
    outnumber the capacity the vector had when the reference was returned. *)
Theorem C91_valid : forall l x k i st, runs l x -> nth_error l k = Some i ->
  (exists x', rstep x (RSet k st) = Some (x', Returned empty_store)) <-> in_place sz i (length (options (r_parser x))).
Proof.
  intros l x k i st R N. destruct (reference_valid sz SZ real getenv l x k i st R N) as (_ & [(V & b & _ & _ & E)|(V & E)]); [tauto|].
  split; [intros (x' & E')|]; [congruence|tauto].
Qed.
(** If not, it is dangling. *)
Theorem C91_dangles : forall l x k i st, runs l x -> nth_error l k = Some i -> ~ in_place sz i (length (options (r_parser x))) ->
  rstep x (RSet k st) = Some (x, Dangling).
Proof. intros l x k i st R N V. destruct (reference_valid sz SZ real getenv l x k i st R N) as (_ & [(C & _)|(_ & E)]); [contradiction|exact E]. Qed.
(** C91: setters through a reference that may be used succeed and give its option
    what was set last, and the choices inserted; nothing else in the parser changes. *)
Theorem C91_sets : forall l x k i ss, runs l x -> nth_error l k = Some i -> in_place sz i (length (options (r_parser x))) ->
  exists x', sets k x ss x' /\ runs l x' /\
    only_at i (set_as ss) (options (r_parser x)) (options (r_parser x')) /\ r_parser x' = with_options (r_parser x) (options (r_parser x')).
Proof.
  intros l x k i ss R N V. destruct (sets_exist sz SZ real getenv l k ss x i R N V) as (x' & S & R'). exists x'. split; [exact S|]. split; [exact R'|].
  destruct (reference_valid sz SZ real getenv l x k i (SEnv []) R N) as (L & [(_ & b & G & _)|(C & _)]); [|contradiction].
  apply nth_error_Some in L. destruct (nth_error (options (r_parser x)) i) as [o|] eqn:E; [|congruence].
  exact (sets_shape sz real getenv k x ss x' S b i o G E).
Qed.
(** C91: add_option(...).action(...).dest(...) and so on is always right. *)
Theorem C91_chain : forall l x ns x1 st ss, runs l x -> rstep x (RCall (PAdd ns)) = Some (x1, Returned st) -> Z.of_nat (length (options (r_parser x1))) <= 2 ^ 32 ->
  exists x2 o, sets (length l) x1 ss x2 /\ set_as ss (fresh ns) o /\ options (r_parser x2) = options (r_parser x) ++ [o].
Proof.
  intros l x ns x1 st ss R E B. pose proof (run_call sz real getenv l x (PAdd ns) x1 _ R E B) as R1. cbv beta iota in R1.
  set (i := (length (options (r_parser x1)) - 1)%nat) in *.
  assert (O : options (r_parser x1) = options (r_parser x) ++ [fresh ns]).
  { cbn [OptRefModel.rstep do_call] in E. unfold add_option in E.
    destruct (OptLifeProofs2.register_kin ns (with_options (r_parser x) (options (r_parser x) ++ [fresh ns]))) as (_ & _ & K).
    destruct (register _ ns) as [q e]. cbn [fst] in K. destruct (make_room _ _ _ _ _) as [cap buf]. injection E as <- _. exact K. }
  assert (I : i = length (options (r_parser x))) by (unfold i; rewrite O, app_length; simpl; lia).
  assert (N : nth_error (l ++ [i]) (length l) = Some i) by (rewrite nth_error_app2, Nat.sub_diag by lia; reflexivity).
  destruct (C91_sets _ x1 (length l) i ss R1 N) as (x2 & S & _ & (A & y & y' & Y & Y' & T) & _).
  - intros k K. rewrite O, app_length. simpl. lia.
  - rewrite O, I, nth_error_app2, Nat.sub_diag in Y by lia. injection Y as <-. exists x2, y'. split; [exact S|]. split; [exact T|].
    apply (list_ext_nth _ _). intros j. destruct (Nat.eq_dec j i) as [->|J].
    + rewrite Y', I, nth_error_app2, Nat.sub_diag by lia. reflexivity.
    + rewrite (A j J), O. destruct (Nat.lt_ge_cases j (length (options (r_parser x)))) as [Q|Q]; [now rewrite !nth_error_app1 by lia|].
      rewrite !nth_error_app2 by lia. destruct (j - length (options (r_parser x)))%nat as [|m] eqn:M; [lia|reflexivity].
Qed.
(** C91: and all the properties of parsers hold of what comes out. *)
Theorem C91_parser : forall l x, runs l x -> used real getenv (r_parser x) /\ Forall (fun i => (i < length (options (r_parser x)))%nat) l.
Proof.
  intros l x R. destruct (runs_inv sz SZ real getenv l x R) as [U _ _ <- F]. split; [exact U|].
  rewrite Forall_map. eapply Forall_impl; [|exact F]. intros r (L & _). exact L.
Qed.
End Props.
Print Assumptions C91_valid.
Print Assumptions C91_dangles.
Print Assumptions C91_sets.
Print Assumptions C91_chain.
Print Assumptions C91_parser.

(** The capacities are those of the vector model (VecModel.v) for emplace_back. *)
Theorem C91_vector : forall k sz dbg mal b size cap a r b' size' cap' a' i,
  VecModel.run_uop k sz dbg mal (VecModel.Vec b size cap) a (VecSpec.UEmplaceBack true r) = Base.Ok (VecModel.Vec b' size' cap', a', VecModel.Done i) ->
  size' = size + 1 /\ i = size /\ forall n, make_room sz 1 size cap n = (cap', if size =? cap then S n else n).
Proof.
  intros k sz dbg mal b size cap a r b' size' cap' a' i. cbn [VecModel.run_uop make_room]. unfold VecModel.full, VecModel.assert, VecModel.realloc_and_emplace_back, VecModel.assert.
  destruct (dbg && negb (size <=? cap)); [discriminate|]. cbn [Base.bind]. destruct (size =? cap) eqn:E; cbn [andb].
  - destruct (dbg && negb (size <? VecModel.next_capacity sz cap)); [discriminate|]. cbn [Base.bind].
    destruct (VecModel.allocate _ _ _ _) as [[nb|]| |]; try discriminate; cbn [Base.bind].
    destruct (VecModel.read_ref b r) as [v| |]; try discriminate. cbn [Base.bind].
    destruct (VecModel.construct _ _ _ _ _) as [[nb1 a1]| |]; try discriminate. cbn [Base.bind].
    destruct (if 0 <? size then _ else _) as [[nb2 a2]| |]; try discriminate. cbn [Base.bind]. intros H. injection H as <- <- <- <- <-. auto.
  - cbn [negb]. rewrite andb_false_r. cbn [Base.bind]. destruct (VecModel.need b) as [bf| |]; try discriminate. cbn [Base.bind].
    destruct (VecModel.read_ref b r) as [v| |]; try discriminate. cbn [Base.bind].
    destruct (VecModel.construct _ _ _ _ _) as [[nb1 a1]| |]; try discriminate. cbn [Base.bind]. intros H. injection H as <- <- <- <- <-. auto.
Qed.
Print Assumptions C91_vector.

(** ** Cases *)
(** sizeof(Option) is 216 with libstdc++. *)
Definition no_env : list Z -> option (list Z) := fun _ => None.
Definition zero : type -> list Z -> Z := fun _ _ => 0.
Notation go := (rstep 216 zero no_env).
Fixpoint steps (x : refs) (l : list rop) : option (refs * list ending) :=
  match l with
  | [] => Some (x, [])
  | o :: r => match go x o with Some (x', e) => match steps x' r with Some (y, es) => Some (y, e :: es) | None => None end | None => None end
  end.

Example C91_capacities : map (capacity_no 216) [0; 1; 2; 3; 4; 5; 6]%nat = [1; 2; 3; 5; 8; 12; 18].
Proof. reflexivity. Qed.
Example C91_in_place : in_place 216 3 5 /\ ~ in_place 216 3 6 /\ ~ in_place 216 0 2.
Proof.
  split; [|split].
  - intros [|[|[|k]]] H; try (vm_compute in H; discriminate H).
    pose proof (cno_mono 216 3 (S (S (S k))) ltac:(lia)) as M. change (capacity_no 216 3) with 5 in M. exact M.
  - intros H. specialize (H 3%nat eq_refl). vm_compute in H. apply H. reflexivity.
  - intros H. specialize (H 0%nat eq_refl). vm_compute in H. apply H. reflexivity.
Qed.
(** The usual way, and a reference that is still good: the fourth option's after the fifth. *)
Example C91_ex : exists x, steps (start default_parser)
    [RCall (PAdd [t "-a"; t "--all"]); RSet 0 (SAction StoreTrue); RSet 0 (SType TBool);
     RCall (PAdd [t "-b"]); RCall (PAdd [t "-c"]); RCall (PAdd [t "-d"]); RCall (PAdd [t "-e"]);
     RSet 3 (SChoices [t "x"; t "y"]); RSet 3 (SDest (t "dd")); RSet 4 (SEnv (t "E"))] = Some (x, repeat (Returned empty_store) 10) /\
  map dest (options (r_parser x)) = [[]; []; []; t "dd"; []] /\ map typ (options (r_parser x)) = [TBool; TString; TString; TChoice; TString].
Proof. eexists. vm_compute. repeat split. Qed.
(** C91 is false of references kept for later: the next add_option makes them
    dangle (finding O17), and so may the options parse_args adds. *)
Theorem C91_kept_refuted :
  option_map snd (steps (start default_parser) [RCall (PAdd [t "-a"]); RCall (PAdd [t "-b"]); RSet 0 (SDest (t "a"))]) =
    Some [Returned empty_store; Returned empty_store; Dangling] /\
  option_map (fun r => last (snd r) Dangling) (steps (start default_parser)
    [RCall (PAdd [t "--all"]); RSet 0 (SAction StoreTrue); RSet 0 (SType TBool); RCall (PParse [t "prog"]); RSet 0 (SDest (t "a"))]) = Some Dangling.
Proof. vm_compute. split; reflexivity. Qed.
Print Assumptions C91_kept_refuted.
