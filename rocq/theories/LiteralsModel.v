(** Model of memory.hpp (size literals).  A [char const*] is the list of its
    characters (signed char values) before the terminating NUL. *)
Require Import ZArith List Bool.
From Verif Require Import Base.
Import ListNotations.
Open Scope Z_scope.

(** memory.hpp:37 [is_digit]; '0' = 48, '9' = 57. *)
Definition is_digit (chr : Z) : bool := (chr <=? 57) && (48 <=? chr).

(** memory.hpp:39-45 [stoi_impl]: [None] models the [throw].
    The digit value is converted to uint64_t and added to value times 10. *)
Fixpoint stoi_impl (str : list Z) (value : Z) : option Z :=
  match str with
  | [] => Some value
  | c :: rest =>
      if is_digit c
      then stoi_impl rest (add64 ((c - 48) mod M64) (mul64 value 10))
      else None
  end.

(** memory.hpp:47 *)
Definition stoi (str : list Z) : option Z := stoi_impl str 0.
(** memory.hpp:48 [1ULL << 10ULL] *)
Definition kilo : Z := Z.shiftl 1 10.
(** memory.hpp:50, 52, 54-56 *)
Definition lit_KB (str : list Z) : option Z :=
  option_map (fun v => mul64 v kilo) (stoi str).
Definition lit_MB (str : list Z) : option Z :=
  option_map (fun v => mul64 (mul64 v kilo) kilo) (stoi str).
Definition lit_GB (str : list Z) : option Z :=
  option_map (fun v => mul64 (mul64 (mul64 v kilo) kilo) kilo) (stoi str).
