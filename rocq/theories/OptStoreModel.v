(** Calls on a ValueStore (optparse/optparse.hpp:55-108), in the order in which a
    program makes them.  An exception is caught, and the program goes on. *)
Require Import ZArith List Bool.
From Verif Require Import OptModel.
Import ListNotations.
Open Scope Z_scope.

(** optparse.hpp:88-99; the push_back loop of lines 94-96 *)
Fixpoint push_all (l : list value) (vs : list value) : list value :=
  match vs with [] => l | v :: r => push_all (l ++ [v]) r end.
Definition append_list (st : vstore) (k : str) (vs : list value) : vstore :=
  {| values := values st;
     lists := put k (match lookup k (lists st) with None => vs | Some l => push_all l vs end) (lists st);
     usr_set := k :: usr_set st |}.

(** The calls that change a store: set, append with one value, append with a list, increment. *)
Inductive scall := SSet (k : str) (v : value) | SAppend (k : str) (v : value) | SAppendList (k : str) (vs : list value) | SIncrement (k : str).
(** optparse.hpp:72-108 *)
Definition do_scall (st : vstore) (c : scall) : out vstore :=
  match c with
  | SSet k v => Ok (set_value st k v)
  | SAppend k v => Ok (append_value st k v)
  | SAppendList k vs => Ok (append_list st k vs)
  | SIncrement k => increment st k
  end.
(** The store afterwards, and the calls that returned.  Only increment can throw
    (std::get, line 106), which it does before the assignment. *)
Fixpoint perform (st : vstore) (l : list scall) : out (vstore * list scall) :=
  match l with
  | [] => Ok (st, [])
  | c :: r =>
      match do_scall st c with
      | Ok st1 => do (st2, d) <- perform st1 r; Ok (st2, c :: d)
      | Throw _ => perform st r
      | Fault f => Fault f
      end
  end.
