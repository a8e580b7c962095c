(** What the texts given to options mean. *)
Require Import ZArith List.
From Verif Require Import OptModel OptSpec.
Import ListNotations.
Open Scope Z_scope.

(** ** Numbers *)
Definition is_digit (c : Z) : Prop := 48 <= c <= 57.
Fixpoint decimal (ds : list Z) : Z :=
  match ds with [] => 0 | d :: r => (d - 48) * 10 ^ Z.of_nat (length r) + decimal r end.
(** [x] starts with the decimal number [n]: a sign, if any, and all the digits that follow. *)
Definition numeral (x : list Z) (n : Z) : Prop :=
  exists sign ds rest, x = sign ++ ds ++ rest /\ Forall is_digit ds /\ (forall c r, rest = c :: r -> ~ is_digit c) /\
    (sign = [] /\ (forall c r, x = c :: r -> c <> 43 /\ c <> 45) /\ n = decimal ds \/ sign = [43] /\ n = decimal ds \/ sign = [45] /\ n = - decimal ds).
(** [m] is the number from [lo] to [hi] nearest to [n]. *)
Definition nearest (lo hi n m : Z) : Prop := (n < lo /\ m = lo) \/ (lo <= n <= hi /\ m = n) \/ (hi < n /\ m = hi).
(** [x] is what is left of [s] without leading blanks, up to a zero character. *)
Definition body (s x : list Z) : Prop :=
  exists b z, s = b ++ x ++ z /\ Forall white b /\ ~ In 0 x /\ (z = [] \/ exists r, z = 0 :: r) /\
    exists c r, x = c :: r /\ ~ white c.

(** ** Values *)
Section Values.
Variable real : type -> list Z -> Z.
(** The text [s] as a value for option [o]; None when it is not one of the choices. *)
Inductive reads_as (o : option_) (s : list Z) : option value -> Prop :=
| ra_string : typ o = TString -> reads_as o s (Some (VStr s))
| ra_choice : typ o = TChoice -> In s (choices o) -> reads_as o s (Some (VStr s))
| ra_other : typ o = TChoice -> ~ In s (choices o) -> reads_as o s None
| ra_bool x n b : typ o = TBool -> body s x -> numeral x n -> (b = false <-> n = 0) -> reads_as o s (Some (VBool b))
| ra_int x n m : typ o = TInt -> body s x -> numeral x n -> nearest (- 2 ^ 31) (2 ^ 31 - 1) n m -> reads_as o s (Some (VInt m))
| ra_long x n m : typ o = TLong -> body s x -> numeral x n -> nearest (- 2 ^ 63) (2 ^ 63 - 1) n m -> reads_as o s (Some (VLong m))
| ra_float x : typ o = TFloat -> body s x -> reads_as o s (Some (VFloat (real TFloat x)))
| ra_double x : typ o = TDouble -> body s x -> reads_as o s (Some (VDouble (real TDouble x))).
(** The values of the texts of a list, up to the first that is not one of the choices. *)
Inductive each (o : option_) : list (list Z) -> list value -> Prop :=
| e_nil : each o [] []
| e_more s v l vs : reads_as o s (Some v) -> each o l vs -> each o (s :: l) (v :: vs)
| e_stop s l : reads_as o s None -> each o (s :: l) [].
Definition only (v : option value) : list value := match v with Some x => [x] | None => [] end.
(** The values a use of option [o] gives.  A list is separated by commas (44). *)
Inductive gives (o : option_) : option (list Z) -> list value -> Prop :=
| g_true u : act o = StoreTrue -> u = None /\ typ o = TBool \/ u = Some [] -> gives o u [VBool true]
| g_false u : act o = StoreFalse -> u = None /\ typ o = TBool \/ u = Some [] -> gives o u [VBool false]
| g_store s v : act o = Store \/ ((act o = StoreTrue \/ act o = StoreFalse) /\ s <> []) -> reads_as o s v -> gives o (Some s) (only v)
| g_one s v : act o = Append -> ~ In 44 s -> reads_as o s v -> gives o (Some s) (only v)
| g_list s l ts vs : act o = Append -> In 44 s -> pieces 44 s l -> Forall2 trimmed (filter (fun x => negb (Nat.eqb (length x) 0)) l) ts ->
    each o ts vs -> gives o (Some s) vs.
Definition gives_opt (o : option_) (t : option (list Z)) (vs : list value) : Prop := match t with Some s => gives o (Some s) vs | None => vs = [] end.
End Values.

(** The text an option has as its default, and in the environment. *)
Definition default_text (o : option_) : option (list Z) := match default o with [] => None | s => Some s end.
Definition env_text (getenv : list Z -> option (list Z)) (o : option_) : option (list Z) := match env o with [] => None | s => getenv (cstr s) end.
(** ** What is found in the store *)
Fixpoint last_of {A} (l : list A) : option A := match l with [] => None | [x] => Some x | _ :: r => last_of r end.
Definition some_list {A} (l : list A) : option (list A) := match l with [] => None | _ => Some l end.
(** The store has the values [vs] for option [o]. *)
Definition has (o : option_) (st : vstore) (vs : list value) : Prop :=
  match act o with
  | Append => get_list st (dest o) = some_list vs /\ get st (dest o) = None
  | _ => get st (dest o) = last_of vs /\ get_list st (dest o) = None
  end.
(** No other option has the destination of option [i]. *)
Definition alone (os : list option_) (i : nat) : Prop :=
  forall j o oj, nth_error os i = Some o -> nth_error os j = Some oj -> j <> i -> dest oj <> dest o.

(** ** Parsers that can come about *)
Section Histories.
Variables (real : type -> list Z -> Z) (getenv : list Z -> option (list Z)).
(** A new parser. *)
Inductive new : parser -> Prop :=
| n_default : new default_parser
| n_prefix c p : prefix_parser c = Ok p -> new p
| n_handler h : new (handler_parser h)
| n_both c h : new (prefix_handler_parser c h).
(** A call on a parser; [e] is what add_option throws, to be caught. *)
Inductive call : parser -> option exn -> parser -> Prop :=
| c_add p ns p' e : add_option p ns = (p', e) -> call p e p'
| c_set p i o : call p None (configure p i o)
| c_program p s : call p None (with_args p (argc p) s)
| c_version p s : call p None (with_version p s)
| c_usage p p' : add_usage_option p = Ok p' -> call p None p'
| c_help p p' : add_help_option p = Ok p' -> call p None p'
| c_add_version p s p' : add_version_option p s = Ok p' -> call p None p'
| c_parse p argv p' st : parse_args real getenv p argv = Ok (p', st) -> call p None p'.
(** Any parser, and one where no call threw. *)
Inductive made : parser -> Prop :=
| m_new p : new p -> made p
| m_call p e p' : made p -> call p e p' -> made p'.
Inductive declared : parser -> Prop :=
| d_new p : new p -> declared p
| d_call p p' : declared p -> call p None p' -> declared p'.
End Histories.
