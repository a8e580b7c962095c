(** What parse_args finds, as the calls it makes on the store it returns.  Options may
    share destinations. *)
Require Import ZArith List.
From Verif Require Import OptModel OptSpec OptSpec2 OptStoreModel OptStoreSpec.
Import ListNotations.
Open Scope Z_scope.

Section Calls.
Variable real : type -> list Z -> Z.
(** The calls that a use of option [o] with the text [u] makes. *)
Inductive calls (o : option_) (u : option (list Z)) : list scall -> Prop :=
| ca_count : act o = Count -> (u = None -> typ o = TBool) -> calls o u [SIncrement (dest o)]
| ca_append vs : act o = Append -> gives real o u vs -> calls o u (map (fun v => SAppend (dest o) v) vs)
| ca_set vs : act o <> Append -> act o <> Count -> gives real o u vs -> calls o u (map (fun v => SSet (dest o) v) vs).
(** The calls for the uses of options on the command line. *)
Inductive entered (os : list option_) : list (nat * option (list Z)) -> list scall -> Prop :=
| en_nil : entered os [] []
| en_use i u o cs us l : nth_error os i = Some o -> calls o u cs -> entered os us l -> entered os ((i, u) :: us) (cs ++ l).
(** The destination [k] is marked by one of the calls [h]. *)
Definition marked (k : list Z) (h : list scall) : Prop := exists c, In c h /\ (sets k c \/ appends k c).
(** The calls that texts from elsewhere add to [h]: for each option in turn, if it has
    such a text and its destination is not marked by then. *)
Inductive filled (text : option_ -> option (list Z)) : list scall -> list option_ -> list scall -> Prop :=
| fi_nil h : filled text h [] []
| fi_none h o os l : text o = None -> filled text h os l -> filled text h (o :: os) l
| fi_there h o os l : marked (dest o) h -> filled text h os l -> filled text h (o :: os) l
| fi_used h o os s cs l : text o = Some s -> ~ marked (dest o) h -> calls o (Some s) cs -> filled text (h ++ cs) os l -> filled text h (o :: os) (cs ++ l).
(** All calls: the command line, the defaults, the environment. *)
Definition history (getenv : list Z -> option (list Z)) (os : list option_) (us : list (nat * option (list Z))) (h : list scall) : Prop :=
  exists h0 h1 h2, entered os us h0 /\ filled default_text h0 os h1 /\ filled (env_text getenv) (h0 ++ h1) os h2 /\ h = h0 ++ h1 ++ h2.
End Calls.
(** Whatever is counted is an int below the greatest one, or nothing yet. *)
Definition countable (h : list scall) : Prop :=
  forall h1 k h2, h = h1 ++ SIncrement k :: h2 -> value_of k h1 None \/ exists n, value_of k h1 (Some (VInt n)) /\ n < 2 ^ 31 - 1.
(** The store has for every key what the calls say. *)
Definition recorded (h : list scall) (st : vstore) : Prop := forall k,
  value_of k h (get st k) /\
  (exists vs, list_of k h vs /\ (get_list st k = Some vs /\ (exists c, In c h /\ appends k c) \/ get_list st k = None /\ forall c, In c h -> ~ appends k c)) /\
  (user_set st k = true <-> marked k h).
