(** Parsers as objects: what parse_args leaves behind however it ends
    (optparse/optparse.cc:205-271), and copies and moves of parsers
    (optparse/optparse.hpp:327-330), whose options keep a reference to the parser
    they were declared on (optparse.hpp:165, 184).  The functions of OptModel.v
    that can throw are written once more, with what has been changed by then.
    A string, vector or map that was moved from is empty. *)
Require Import ZArith List Bool.
From Verif Require Import OptModel.
Import ListNotations.
Open Scope Z_scope.

(** How a call ends.  [Dangling]: a reference to a parser that is destroyed is followed. *)
Inductive ending := Returned (st : vstore) | Threw (e : exn) | Faulted (f : fault) | Dangling.

(** [m] while _invalid_args is [l]. *)
Definition keep {A B} (l : list nat) (m : out A) (k : A -> list nat * out B) : list nat * out B :=
  match m with Ok a => k a | Throw e => (l, Throw e) | Fault f => (l, Fault f) end.

(** optparse.cc:161-198; a throwing add_option has already put the option into the list *)
Definition add_flag_s (p : parser) (short : Z) (name : str) : parser * option exn :=
  let s := [prefix p; short] in
  let l := long_prefix p ++ name in
  if negb (contains (short_map p) s) && negb (contains (long_map p) l) then
    match add_option p [s; l] with
    | (p1, None) => (configure p1 (length (options p1) - 1) (flag name), None)
    | (p1, Some e) => (p1, Some e)
    end
  else (p, None).

(** optparse.cc:75-89: the option refers to parser number [r], which [look] finds,
    unless it is destroyed.  Only options without a destination follow the
    reference, once for every name. *)
Definition settled_dest (look : nat -> option parser) (r : nat) (o : option_) : option str :=
  match dest o, names o with
  | _ :: _, _ => Some (dest o)
  | [], [] => Some []
  | [], ns => match look r with Some q => Some (first_long q ns) | None => None end
  end.
Definition validate_s (look : nat -> option parser) (r : nat) (o : option_) : option (option_ * bool) :=
  match settled_dest look r o with
  | None => None
  | Some d =>
      Some ({| names := names o; act := act o; typ := typ o; dest := d; default := default o; choices := choices o; env := env o |},
            negb (nullb (names o) || is_null (act o) || nullb d || (negb (is_choice (typ o)) && negb (nullb (choices o)))))
  end.
(** optparse.cc:221-225: the options afterwards, and how the loop ends *)
Inductive verdict := AllValid | Incomplete | NoName | NoParser.
Fixpoint validate_loop (look : nat -> option parser) (os : list option_) (rs : list nat) : list option_ * verdict :=
  match os, rs with
  | [], _ => ([], AllValid)
  | _, [] => (os, NoParser)
  | o :: os', r :: rs' =>
      match validate_s look r o with
      | None => (os, NoParser)
      | Some (o1, true) => let (l, v) := validate_loop look os' rs' in (o1 :: l, v)
      | Some (o1, false) => (o1 :: os', match names o1 with [] => NoName | _ => Incomplete end)
      end
  end.

Section Parse.
Variable real : type -> str -> Z.
Variable getenv : str -> option str.

(** optparse.cc:464-480 *)
Fixpoint run_values_s (fuel : nat) (p : parser) (n : Z) (o : option_) (w : work) : list nat * out work :=
  match fuel with
  | O => (w_invalid w, Fault NoFuel)
  | S fuel' =>
      if empty (w_args w) then (w_invalid w, Ok w) else
      keep (w_invalid w) (peek (w_args w)) (fun s =>
      if starts_with s (prefix p) then (w_invalid w, Ok w) else
      keep (w_invalid w) (pop (w_args w)) (fun '(v, a) =>
      match act o with
      | Append =>
          keep (w_invalid w) (process_opt real o (w_store w) v) (fun '(st, _) =>
          run_values_s fuel' p n o {| w_store := st; w_args := a; w_invalid := w_invalid w |})
      | _ =>
          keep (w_invalid w) (span_at n (pos a)) (fun i =>
          run_values_s fuel' p n o {| w_store := w_store w; w_args := a; w_invalid := w_invalid w ++ [i] |})
      end))
  end.
(** optparse.cc:430-484 *)
Definition handle_opt_s (p : parser) (n : Z) (w : work) : list nat * out (work * bool) :=
  let inv := w_invalid w in
  if empty (w_args w) then (inv, Ok (w, false)) else
  keep inv (pop (w_args w)) (fun '(front, a) =>
  let w1 := {| w_store := w_store w; w_args := a; w_invalid := inv |} in
  match find_opt p (trim_string (extract_opt_name front)) with
  | None => (inv, Ok (w1, false))
  | Some i =>
      match nth_error (options p) i with
      | None => (inv, Fault BadIndex)
      | Some o =>
          keep inv (has_value_to_process p front a) (fun h =>
          if negb h then
            match typ o with
            | TBool => keep inv (process_opt real o (w_store w) []) (fun '(st, _) => (inv, Ok ({| w_store := st; w_args := a; w_invalid := inv |}, true)))
            | _ => (inv, Throw LogicError)
            end
          else
            let rest (st : vstore) (a : arg_list) :=
              let (l, r) := run_values_s (S (length (args a))) p n o {| w_store := st; w_args := a; w_invalid := inv |} in
              (l, do w2 <- r; Ok (w2, true)) in
            match extract_opt_value front with
            | [] =>
                if empty a then (inv, Ok (w1, false))
                else keep inv (pop a) (fun '(v, a1) => keep inv (process_opt real o (w_store w) v) (fun '(st, _) => rest st a1))
            | v => keep inv (process_opt real o (w_store w) v) (fun '(st, _) => rest st a)
            end)
      end
  end).
(** optparse.cc:232-246 *)
Fixpoint parse_loop_s (fuel : nat) (p : parser) (n : Z) (w : work) : list nat * out work :=
  match fuel with
  | O => (w_invalid w, Fault NoFuel)
  | S fuel' =>
      if empty (w_args w) then (w_invalid w, Ok w) else
      keep (w_invalid w) (peek (w_args w)) (fun front =>
      match extract_arg_type p front with
      | InvalidOpt =>
          keep (w_invalid w) (pop (w_args w)) (fun '(_, a) =>
          keep (w_invalid w) (span_at n (pos a)) (fun i =>
          parse_loop_s fuel' p n {| w_store := w_store w; w_args := a; w_invalid := w_invalid w ++ [i] |}))
      | _ =>
          let (l, r) := handle_opt_s p n w in
          keep l r (fun '(w1, ok) =>
          if ok : bool then parse_loop_s fuel' p n w1
          else keep (w_invalid w1) (span_at n (pos (w_args w1))) (fun i =>
               parse_loop_s fuel' p n {| w_store := w_store w1; w_args := w_args w1; w_invalid := w_invalid w1 ++ [i] |}))
      end)
  end.
(** optparse.cc:232-271, with the options settled: the parser afterwards, and the ending *)
Definition read_args (p : parser) (av : list str) : parser * ending :=
  let (l, r) := parse_loop_s (S (length av)) p (argc p mod 2 ^ 32) {| w_store := empty_store; w_args := {| args := av; it := 0 |}; w_invalid := [] |} in
  (with_invalid p l,
   match (do w <- r; do st1 <- use_defaults real (options p) (w_store w); use_env real getenv (options p) st1) with
   | Ok st => Returned st
   | Throw e => Threw e
   | Fault f => Faulted f
   end).
(** optparse.cc:205-271; [rs] are the parsers the options refer to *)
Definition parse_object (look : nat -> option parser) (p : parser) (rs : list nat) (argv : list str) : parser * ending :=
  match argv with
  | [] => (p, Threw LogicError)
  | a0 :: av =>
      let p0 := with_invalid (with_args p (Z.of_nat (length argv)) (if nullb (program p) then a0 else program p)) [] in
      let (os, v) := validate_loop look (options p0) rs in
      let p1 := with_options p0 os in
      match v with
      | NoParser => (p1, Dangling)
      | NoName => (p1, Faulted NoFront)
      | Incomplete => (p1, Threw LogicError)
      | AllValid =>
          match add_flag_s p1 117 s_usage with
          | (p2, Some e) => (p2, Threw e)
          | (p2, None) =>
              match add_flag_s p2 104 s_help with
              | (p3, Some e) => (p3, Threw e)
              | (p3, None) =>
                  match add_flag_s (with_version p3 []) 118 s_version with
                  | (p4, Some e) => (p4, Threw e)
                  | (p4, None) => read_args p4 av
                  end
              end
          end
      end
  end.

(** ** Objects *)
(** A parser and, option by option, the numbers of the parsers referred to. *)
Record object := { o_parser : parser; o_refs : list nat }.
(** None: destroyed. *)
Definition world := list (option object).
Definition living (W : world) (i : nat) : option object := match nth_error W i with Some (Some x) => Some x | _ => None end.
Definition look (W : world) (i : nat) : option parser := match living W i with Some x => Some (o_parser x) | None => None end.
Fixpoint update (W : world) (i : nat) (x : option object) : world :=
  match W, i with [], _ => [] | _ :: r, O => x :: r | y :: r, S j => y :: update r j x end.
(** The options a call has added to object [i] were constructed with a reference to it (optparse.cc:151-159, 200-203). *)
Definition with_parser (i : nat) (x : object) (p : parser) : object :=
  {| o_parser := p; o_refs := o_refs x ++ repeat i (length (options p) - length (o_refs x)) |}.
(** optparse.hpp:329 OptionParser(OptionParser&&): what is left of the source; prefix and conflict
    handler, argc and argv are copied *)
Definition moved_from (p : parser) : parser :=
  {| prefix := prefix p; long_prefix := []; argc := argc p; program := []; version := []; options := [];
     long_map := []; short_map := []; invalid := []; conflict := conflict p |}.

(** The calls on one parser, *)
Inductive pcall :=
| PAdd (ns : list str) | PSet (k : nat) (c : option_) | PProgram (s : str) | PVersion (s : str)
| PAddUsage | PAddHelp | PAddVersion (s : str) | PParse (argv : list str).
(** and those on objects: construction, calls, copies and moves to a new object, destruction. *)
Inductive wop := WNew (p : parser) | WCall (i : nat) (c : pcall) | WCopy (i : nat) | WMove (i : nat) | WDestroy (i : nat).

Definition threw (e : option exn) : ending := match e with None => Returned empty_store | Some x => Threw x end.
(** A call, by the code; a call that returns nothing ends like one that returns an empty store. *)
Definition do_call (lk : nat -> option parser) (p : parser) (rs : list nat) (c : pcall) : parser * ending :=
  match c with
  | PAdd ns => let (p', e) := add_option p ns in (p', threw e)
  | PSet k o => (configure p k o, Returned empty_store)
  | PProgram s => (with_args p (argc p) s, Returned empty_store)
  | PVersion s => (with_version p s, Returned empty_store)
  | PAddUsage => let (p', e) := add_flag_s p 117 s_usage in (p', threw e)
  | PAddHelp => let (p', e) := add_flag_s p 104 s_help in (p', threw e)
  | PAddVersion s => let (p', e) := add_flag_s (with_version p s) 118 s_version in (p', threw e)
  | PParse argv => parse_object lk p rs argv
  end.
(** None: a call on an object that is destroyed. *)
Definition wstep (W : world) (o : wop) : option (world * ending) :=
  match o with
  | WNew p => Some (W ++ [Some {| o_parser := p; o_refs := [] |}], Returned empty_store)
  | WCall i c =>
      match living W i with
      | None => None
      | Some x => let (p', e) := do_call (look W) (o_parser x) (o_refs x) c in Some (update W i (Some (with_parser i x p')), e)
      end
  | WCopy i => match living W i with None => None | Some x => Some (W ++ [Some x], Returned empty_store) end
  | WMove i =>
      match living W i with
      | None => None
      | Some x => Some (update W i (Some {| o_parser := moved_from (o_parser x); o_refs := [] |}) ++ [Some x], Returned empty_store)
      end
  | WDestroy i => match living W i with None => None | Some _ => Some (update W i None, Returned empty_store) end
  end.
End Parse.
