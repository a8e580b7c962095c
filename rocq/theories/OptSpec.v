(** What an option parser is to do, in terms of lists of arguments. *)
Require Import ZArith List.
Import ListNotations.
Open Scope Z_scope.

(** ** Texts *)
Definition white (c : Z) : Prop := c = 32 \/ 9 <= c <= 13.
(** [t] is [s] without the blanks around it. *)
Definition trimmed (s t : list Z) : Prop :=
  exists b e, s = b ++ t ++ e /\ Forall white b /\ Forall white e /\
    (forall c r, t = c :: r -> ~ white c) /\ (forall c r, t = r ++ [c] -> ~ white c).
(** [s] is [name], or [name=v]: the first '=' (61) separates. *)
Definition cut (s name : list Z) (v : option (list Z)) : Prop :=
  ~ In 61 name /\ match v with None => s = name | Some x => s = name ++ 61 :: x end.
(** The pieces between the separators [d]. *)
Fixpoint join (d : Z) (l : list (list Z)) : list Z :=
  match l with [] => [] | [x] => x | x :: r => x ++ d :: join d r end.
Definition pieces (d : Z) (s : list Z) (l : list (list Z)) : Prop :=
  l <> [] /\ join d l = s /\ Forall (fun x => ~ In d x) l.
(** Without any blanks. *)
Definition unblank (s : list Z) : list Z := filter (fun c => negb (orb (c =? 32) (andb (9 <=? c) (c <=? 13)))) s.

(** ** Command lines *)
Section Reading.
Variables (prefix : Z) (known : list Z -> option nat) (many : nat -> bool).
Definition option_like (s : list Z) : Prop := exists r, s = prefix :: r.
(** An argument is an option, the value of one, or neither. *)
Inductive role := Opt | Val | Neither.
Definition ends (rest : list (list Z)) : Prop := rest = [] \/ exists a r, rest = a :: r /\ option_like a.
Definition names_option (a : list Z) (v : option (list Z)) (i : nat) : Prop :=
  option_like a /\ exists n t, cut a n v /\ trimmed n t /\ known t = Some i.
(** [reading args roles uses]: the roles of the arguments and, in their order, the
    uses of options: which one, with which text, if any.
    An option takes the text after '=', or else the next argument, which must not
    look like an option unless there was '='.  The arguments after it, up to the
    next that looks like an option, are values too if the option takes [many]. *)
Inductive reading : list (list Z) -> list role -> list (nat * option (list Z)) -> Prop :=
| r_nil : reading [] [] []
| r_stray a r rs us : ~ option_like a -> reading r rs us -> reading (a :: r) (Neither :: rs) us
| r_unknown a n v t r rs us : option_like a -> cut a n v -> trimmed n t -> known t = None ->
    reading r rs us -> reading (a :: r) (Neither :: rs) us
| r_flag a i r rs us : names_option a None i -> ends r ->
    reading r rs us -> reading (a :: r) (Opt :: rs) ((i, None) :: us)
| r_inline a x i run r rs us : names_option a (Some x) i -> x <> [] -> Forall (fun s => ~ option_like s) run -> ends r ->
    reading r rs us ->
    reading (a :: run ++ r) (Opt :: map (fun _ => if many i then Val else Neither) run ++ rs)
            ((i, Some x) :: (if many i then map (fun s => (i, Some s)) run else []) ++ us)
| r_next a v x i run r rs us : names_option a v i -> (v = None /\ ~ option_like x) \/ v = Some [] -> Forall (fun s => ~ option_like s) run -> ends r ->
    reading r rs us ->
    reading (a :: x :: run ++ r) (Opt :: Val :: map (fun _ => if many i then Val else Neither) run ++ rs)
            ((i, Some x) :: (if many i then map (fun s => (i, Some s)) run else []) ++ us)
| r_dangling a i : names_option a (Some []) i -> reading [a] [Neither] [].
(** The positions of the arguments that are neither, the first having [k]. *)
Fixpoint neither (k : nat) (rs : list role) : list nat :=
  match rs with [] => [] | Neither :: r => k :: neither (S k) r | _ :: r => neither (S k) r end.
(** The uses of option [i]. *)
Definition uses_of (i : nat) (us : list (nat * option (list Z))) : list (option (list Z)) :=
  map snd (filter (fun u => Nat.eqb (fst u) i) us).
End Reading.
