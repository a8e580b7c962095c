(** References to options: add_option returns a reference to an element of
    _options (optparse/optparse.cc:126-149), through which the option is
    configured (optparse.hpp:190-255).  _options is a stdb_vector (optparse.hpp:51,
    306), which moves its elements to another buffer when it is full; a
    reference to the old place is then dangling.  Memory does not run out. *)
Require Import ZArith List Bool.
From Verif Require Import OptModel OptLifeModel.
From Verif Require VecModel.
Import ListNotations.
Open Scope Z_scope.

(** The setters, optparse.hpp:190-193, 197-200, 204-207, 211-226, 230-241, 252-255.  help() is left
    out, as help texts are in OptModel.v.  [SDefault]: the text stored, whichever
    overload is called.  [SChoices]: both overloads; the set is kept as the list of what was inserted. *)
Inductive setter :=
| SAction (a : action) | SType (t : type) | SDest (d : str) | SDefault (d : str) | SChoices (l : list str) | SEnv (v : str).
Definition apply_setter (st : setter) (o : option_) : option_ :=
  match st with
  | SAction a => {| names := names o; act := a; typ := typ o; dest := dest o; default := default o; choices := choices o; env := env o |}
  | SType t => {| names := names o; act := act o; typ := t; dest := dest o; default := default o; choices := choices o; env := env o |}
  | SDest d => {| names := names o; act := act o; typ := typ o; dest := d; default := default o; choices := choices o; env := env o |}
  | SDefault d => {| names := names o; act := act o; typ := typ o; dest := dest o; default := d; choices := choices o; env := env o |}
  | SChoices l => {| names := names o; act := act o; typ := TChoice; dest := dest o; default := default o; choices := choices o ++ l; env := env o |}
  | SEnv v => {| names := names o; act := act o; typ := typ o; dest := dest o; default := default o; choices := choices o; env := v |}
  end.

(** A parser, the capacity of _options and the number of its buffer (counting
    reallocations), and the references returned so far: buffer and index. *)
Record refs := { r_parser : parser; r_cap : Z; r_buf : nat; r_given : list (nat * nat) }.

Section WithSize.
(** sizeof(Option) *)
Variable sz : Z.
Variable real : type -> str -> Z.
Variable getenv : str -> option str.

(** stdb_vector.hpp:951-965 emplace_back, [n] times, from [size] elements:
    capacity and number of the buffer.  When the vector is full it moves to a
    buffer of compute_next_capacity() elements. *)
Fixpoint make_room (n : nat) (size cap : Z) (buf : nat) : Z * nat :=
  match n with
  | O => (cap, buf)
  | S m => if size =? cap then make_room m (size + 1) (VecModel.next_capacity sz cap) (S buf)
           else make_room m (size + 1) cap buf
  end.

(** The calls on the parser, of which optparse.cc:151-159, 200-203 return a reference
    unless they throw; setters through reference number [k] of those returned. *)
Inductive rop := RCall (c : pcall) | RSet (k : nat) (st : setter).

Definition gives_reference (c : pcall) (e : ending) : bool :=
  match c, e with PAdd _, Returned _ => true | _, _ => false end.

(** None: there is no such reference.  [PSet], OptLifeModel's setting of an
    option, is not a call of the program: that is [RSet]. *)
Definition rstep (x : refs) (o : rop) : option (refs * ending) :=
  match o with
  | RCall (PSet _ _) => None
  | RCall c =>
      let p := r_parser x in
      let n := length (options p) in
      let (p', e) := do_call real getenv (fun _ => Some p) p (repeat 0%nat n) c in
      let (cap, buf) := make_room (length (options p') - n) (Z.of_nat n) (r_cap x) (r_buf x) in
      Some ({| r_parser := p'; r_cap := cap; r_buf := buf;
               r_given := if gives_reference c e then r_given x ++ [(buf, (length (options p') - 1)%nat)] else r_given x |}, e)
  | RSet k st =>
      match nth_error (r_given x) k with
      | None => None
      | Some (b, i) =>
          if (b =? r_buf x)%nat
          then Some ({| r_parser := with_options (r_parser x) (alter i (apply_setter st) (options (r_parser x)));
                        r_cap := r_cap x; r_buf := r_buf x; r_given := r_given x |}, Returned empty_store)
          else Some (x, Dangling)
      end
  end.

Definition start (p : parser) : refs := {| r_parser := p; r_cap := 0; r_buf := 0; r_given := [] |}.
End WithSize.
