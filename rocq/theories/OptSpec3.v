(** More on what an option parser is to do: splitting at a text, the options used
    by parse_args, typed access to the values, usage and help texts. *)
Require Import ZArith List.
From Verif Require Import OptModel OptModel2 OptSpec OptSpec2.
Import ListNotations.
Open Scope Z_scope.

(** ** Splitting *)
(** [s] is [x], the first [d] in it, and [r]. *)
Definition first_at (d s x r : list Z) : Prop := s = x ++ d ++ r /\ forall x' r', s = x' ++ d ++ r' -> (length x <= length x')%nat.
(** The parts of [s] between one [d] and the next. *)
Inductive chunks (d : list Z) : list Z -> list (list Z) -> Prop :=
| ch_last s : (forall x r, s <> x ++ d ++ r) -> chunks d s [s]
| ch_more s x r l : first_at d s x r -> chunks d r l -> chunks d s (x :: l).
Fixpoint joined (d : list Z) (l : list (list Z)) : list Z :=
  match l with [] => [] | [x] => x | x :: r => x ++ d ++ joined d r end.

(** ** The options *)
Definition long_name (p : parser) (n : list Z) : Prop := exists c r, n = long_prefix p ++ c :: r.
(** [o'] is [o], with a destination: its own, or else its first long name without the prefix. *)
Definition settled (p : parser) (o o' : option_) : Prop :=
  names o' = names o /\ act o' = act o /\ typ o' = typ o /\ default o' = default o /\ choices o' = choices o /\ env o' = env o /\ dest o' <> [] /\
  (dest o' = dest o \/
   dest o = [] /\ exists l1 l2, names o = l1 ++ (long_prefix p ++ dest o') :: l2 /\ Forall (fun n => ~ long_name p n) l1).
(** An option has a name and an action, and choices only if that is its type. *)
Definition complete (o : option_) : Prop := names o <> [] /\ act o <> Null /\ (choices o = [] \/ typ o = TChoice).
(** The options every parser gets, unless one of their names is taken: -u --usage, -h --help, -v --version. *)
Definition automatic : list (Z * list Z) := [(117, [117; 115; 97; 103; 101]); (104, [104; 101; 108; 112]); (118, [118; 101; 114; 115; 105; 111; 110])].
Definition auto_names (p : parser) (a : Z * list Z) : list (list Z) := [[prefix p; fst a]; long_prefix p ++ snd a].
Definition auto_option (p : parser) (a : Z * list Z) : option_ :=
  {| names := auto_names p a; act := StoreTrue; typ := TBool; dest := snd a; default := []; choices := []; env := [] |}.
Definition taken (p : parser) (a : Z * list Z) : Prop := exists o n, In o (options p) /\ In n (names o) /\ In n (auto_names p a).
(** The options that parse_args works with. *)
Definition equipped (p : parser) (os : list option_) : Prop :=
  exists own free, os = own ++ map (auto_option p) (filter free automatic) /\ Forall2 (settled p) (options p) own /\
    (forall a, In a automatic -> (free a = true <-> ~ taken p a)).

(** ** Types *)
Definition alt_of (t : type) : alt :=
  match t with TBool => ABool | TInt => AInt | TLong => ALong | TFloat => AFloat | TDouble => ADouble | TChoice | TString => AString end.

(** ** Texts *)
Definition letters (s : list Z) : list Z := map (fun c => if Z.leb 97 c then if Z.leb c 122 then c - 32 else c else c) s.
(** [" [-q QUIET]"] for an option of type bool, [" [-f]"] for others *)
Definition usage_item (o : option_) : list Z :=
  [32; 91] ++ hd [] (names o) ++ match typ o with TBool => 32 :: letters (dest o) | _ => [] end ++ [93].
(** "usage: prog [-f] [-q QUIET]" *)
Definition usage_text (p : parser) : list Z :=
  [117; 115; 97; 103; 101; 58; 32] ++ program p ++ concat (map usage_item (options p)) ++ [10].
Definition type_word (t : type) : list Z :=
  match t with
  | TBool => [98; 111; 111; 108] | TInt => [105; 110; 116] | TLong => [108; 111; 110; 103] | TFloat => [102; 108; 111; 97; 116]
  | TDouble => [100; 111; 117; 98; 108; 101] | TChoice => [99; 104; 111; 105; 99; 101] | TString => [115; 116; 114; 105; 110; 103]
  end.
(** ["-f, --file=<string>"] *)
Definition help_item (o : option_) : list Z := joined [44; 32] (names o) ++ [61; 60] ++ type_word (typ o) ++ [62].
(** One line for each option, the help texts beginning in column [w]. *)
Definition help_lines (p : parser) (help : nat -> list Z) (w : nat) : list Z :=
  concat (map (fun x => [32; 32] ++ help_item (snd x) ++ repeat 32 (w - length (help_item (snd x))) ++ help (fst x) ++ [10])
              (combine (seq 0 (length (options p))) (options p))).

(** ** Names *)
(** The last of the options that have the name [t]; [i] is the number of the first. *)
Fixpoint last_with (t : list Z) (os : list option_) (i : nat) : option nat :=
  match os with
  | [] => None
  | o :: r => match last_with t r (S i) with
              | Some j => Some j
              | None => if in_dec (list_eq_dec Z.eq_dec) t (names o) then Some i else None
              end
  end.
(** The option that a name stands for.  The long prefix alone does not stand for any, nor does
    a text without prefix. *)
Definition stands_for (p : parser) (os : list option_) (t : list Z) (found : option nat) : Prop :=
  (found = last_with t os 0 /\ (option_like (prefix p) t \/ long_name p t) /\ t <> long_prefix p) \/
  (found = None /\ (~ option_like (prefix p) t /\ ~ long_name p t \/ t = long_prefix p)).

(** ** Calls that return *)
Section Returns.
Variables (real : type -> list Z -> Z) (getenv : list Z -> option (list Z)).
(** A use of an option that gives values, or is counted. *)
Definition usable (o : option_) (u : option (list Z)) : Prop :=
  match act o with Count => u = None -> typ o = TBool | _ => exists vs, gives real o u vs end.
Definition usable_opt (o : option_) (t : option (list Z)) : Prop := match t with Some s => usable o (Some s) | None => True end.
End Returns.
(** A destination where uses are counted is not used for values. *)
Definition counted_apart (os : list option_) : Prop :=
  forall o o', In o os -> In o' os -> act o = Count -> act o' <> Count -> dest o' <> dest o.
