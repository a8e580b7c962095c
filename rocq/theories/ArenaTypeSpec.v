(** What objects of a type are promised by the arena that builds them. *)
Require Import ZArith List Bool.
From Verif Require Import Base ArenaSpec ArenaModel ArenaStatements ArenaTypeModel.
Import ListNotations.
Open Scope Z_scope.

(** Destroying an object of the type does something: the type itself, its base
    or a member has a destructor of its own. *)
Inductive has_destructor : ctype -> Prop :=
| hd_own x b ms : i_dtor x = true -> has_destructor (CType x b ms)
| hd_base x ac B ms : has_destructor B -> has_destructor (CType x (Some (ac, B)) ms)
| hd_member x b ms M : In M ms -> has_destructor M -> has_destructor (CType x b ms).

(** The type publicly declares the tag, or inherits it by public inheritance. *)
Inductive tagged (tag : info -> option access) : ctype -> Prop :=
| tg_own x b ms : tag x = Some Public -> tagged tag (CType x b ms)
| tg_base x B ms : tag x = None -> tagged tag B -> tagged tag (CType x (Some (Public, B)) ms).

(** The arena in which the objects of arena [j] live after step [o]: a move
    takes them along; Reset() and destruction end their lives. *)
Definition next_home (s : sys) (j : nat) (o : sop) : option nat :=
  match o with
  | SReset k | SDestroy k => if (k =? j)%nat then None else Some j
  | SMove k => if (k =? j)%nat then Some (length (s_arenas s)) else Some j
  | _ => Some j
  end.

(** Any permitted steps take [s] to [s'], and the objects of arena [i] are in
    arena [j] then. *)
Inductive carried (e : env) (A : Z) (s : sys) (i : nat) : sys -> nat -> Prop :=
| carried_here : carried e A s i s i
| carried_step s1 j o s2 r k : carried e A s i s1 j -> permitted A s1 o -> step e s1 o = Ok (s2, r) ->
    next_home s1 j o = Some k -> carried e A s i s2 k.

(** The end of the lives of the objects of arena [i]. *)
Definition ends (i : nat) (o : sop) : Prop := o = SReset i \/ o = SDestroy i.

(** Sizes and alignments as the language has them. *)
Definition alignment (a : Z) : Prop := exists n, 0 <= n < 63 /\ a = 2 ^ n.
Definition layout_ok (T : ctype) : Prop :=
  alignment (i_align (own T)) /\ 0 < i_size (own T) <= max_request /\ i_size (own T) mod i_align (own T) = 0.
