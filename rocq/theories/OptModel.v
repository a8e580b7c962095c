(** The option parser: optparse/optparse.hpp and optparse/optparse.cc.

    Strings are lists of bytes; stdb_vector is a list (its own properties are
    C21-C32), std::map an association list, std::set a list.  A pointer into argv
    is the position it has there.  Exceptions end a call; the state of the parser
    after one is modelled for add_option only.  Not modelled: the texts of
    exceptions, help texts, copies and moves of a parser (options keep a
    reference to the original), running out of memory. *)
Require Import ZArith List Bool.
Import ListNotations.
Open Scope Z_scope.

Definition str := list Z.
(** What a call ends with.  The faults are what must not happen: reading beyond
    the argument list, an index out of range of a vector or span, a variable
    read before it got a value, front() of an empty vector, overflow of int, a
    null pointer; [NoFuel] is a loop that goes on longer than the model follows. *)
Inductive exn := LogicError | BadVariant.
Inductive fault := BeyondArgs | BadIndex | Uninit | NoFront | Overflow | Null_ | NoFuel.
Inductive out (A : Type) := Ok (a : A) | Throw (e : exn) | Fault (f : fault).
Arguments Ok {A}. Arguments Throw {A}. Arguments Fault {A}.
Definition bnd {A B} (m : out A) (k : A -> out B) : out B :=
  match m with Ok a => k a | Throw e => Throw e | Fault f => Fault f end.
Notation "'do' p <- m ; k" := (bnd m (fun p => k)) (at level 200, p pattern, m at level 100, k at level 200).

(** ** std::string, std::string_view *)
Fixpoint seqb (a b : str) : bool :=
  match a, b with [], [] => true | x :: a, y :: b => (x =? y) && seqb a b | _, _ => false end.
Fixpoint prefixb (a s : str) : bool :=
  match a, s with [], _ => true | x :: a, y :: s => (x =? y) && prefixb a s | _, _ => false end.
Definition starts_with (s : str) (c : Z) : bool := match s with x :: _ => x =? c | [] => false end.
Definition substr (pos n : nat) (s : str) : str := firstn n (skipn pos s).
(** find(d, pos); [i] is the position of the characters [s] *)
Fixpoint find_at (d s : str) (i : nat) : option nat :=
  if prefixb d s then Some i else match s with [] => None | _ :: r => find_at d r (S i) end.
Definition find (d s : str) (pos : nat) : option nat :=
  if (pos <=? length s)%nat then find_at d (skipn pos s) pos else None.
(** " \t\n\r\f\v", the blanks of the "C" locale *)
Definition blank (c : Z) : bool := (c =? 32) || ((9 <=? c) && (c <=? 13)).
Fixpoint first_not_blank (s : str) (i : nat) : option nat :=
  match s with [] => None | c :: r => if blank c then first_not_blank r (S i) else Some i end.
Fixpoint last_not_blank (s : str) (i : nat) (best : option nat) : option nat :=
  match s with [] => best | c :: r => last_not_blank r (S i) (if blank c then best else Some i) end.
(** The characters up to the first zero: what a const char* shows of it. *)
Fixpoint cstr (s : str) : str := match s with [] => [] | c :: r => if c =? 0 then [] else c :: cstr r end.

(** optparse.cc:44-51 *)
Definition trim_string (input : str) : str :=
  match last_not_blank input 0 None, first_not_blank input 0 with
  | Some e, Some s => substr s (e - s + 1) input
  | _, _ => []
  end.
(** optparse.cc:53-73 *)
Fixpoint split_loop (fuel : nat) (s d : str) (skip_empty : bool) (last : nat) (tokens : list str) : out (list str) :=
  match fuel with
  | O => Fault NoFuel
  | S fuel' =>
      let cur := match find d s last with Some i => i | None => length s end in
      let len := (cur - last)%nat in
      let tokens := if negb skip_empty || negb (len =? 0)%nat then tokens ++ [trim_string (substr last len s)] else tokens in
      if (cur =? length s)%nat then Ok tokens
      else split_loop fuel' s d skip_empty (cur + length d)%nat tokens
  end.
Definition split (s d : str) (skip_empty : bool) : out (list str) :=
  split_loop (S (length s)) s d skip_empty 0 [].

(** optparse.cc:397-411; '=' is 61 *)
Definition extract_opt_name (opt : str) : str :=
  match find [61] opt 0 with None => opt | Some i => substr 0 i opt end.
Definition extract_opt_value (opt : str) : str :=
  match find [61] opt 0 with None => [] | Some i => skipn (i + 1) opt end.

(** ** Values *)
(** optparse.hpp:53 Value *)
Inductive value := VBool (b : bool) | VInt (n : Z) | VLong (n : Z) | VFloat (x : Z) | VDouble (x : Z) | VStr (s : str).
(** optparse.hpp:139-160 *)
Inductive action := Null | Store | StoreTrue | StoreFalse | Append | Count | Help | Version.
Inductive type := TBool | TInt | TLong | TFloat | TDouble | TChoice | TString.

(** std::map<string, A>, std::set<string> *)
Fixpoint lookup {A} (k : str) (m : list (str * A)) : option A :=
  match m with [] => None | (x, a) :: r => if seqb k x then Some a else lookup k r end.
Fixpoint put {A} (k : str) (a : A) (m : list (str * A)) : list (str * A) :=
  match m with [] => [(k, a)] | (x, b) :: r => if seqb k x then (x, a) :: r else (x, b) :: put k a r end.
Definition contains {A} (m : list (str * A)) (k : str) : bool := match lookup k m with Some _ => true | None => false end.
Definition member (k : str) (s : list str) : bool := existsb (seqb k) s.

(** optparse.hpp:55-60 *)
Record vstore := { values : list (str * value); lists : list (str * list value); usr_set : list str }.
Definition empty_store : vstore := {| values := []; lists := []; usr_set := [] |}.
Definition user_set (st : vstore) (k : str) : bool := member k (usr_set st).
(** optparse.hpp:72-75, 77-86, 101-108 (int is 32 bits wide) *)
Definition set_value (st : vstore) (k : str) (v : value) : vstore :=
  {| values := put k v (values st); lists := lists st; usr_set := k :: usr_set st |}.
Definition append_value (st : vstore) (k : str) (v : value) : vstore :=
  {| values := values st;
     lists := put k (match lookup k (lists st) with None => [v] | Some l => l ++ [v] end) (lists st);
     usr_set := k :: usr_set st |}.
Definition increment (st : vstore) (k : str) : out vstore :=
  match lookup k (values st) with
  | None => Ok {| values := put k (VInt 1) (values st); lists := lists st; usr_set := usr_set st |}
  | Some (VInt n) =>
      if n + 1 <? 2 ^ 31 then Ok {| values := put k (VInt (n + 1)) (values st); lists := lists st; usr_set := usr_set st |}
      else Fault Overflow
  | Some _ => Throw BadVariant
  end.
(** optparse.hpp:110-123, the value whatever its type *)
Definition get (st : vstore) (k : str) : option value := lookup k (values st).
Definition get_list (st : vstore) (k : str) : option (list value) := lookup k (lists st).

(** ** Options and parsers *)
(** optparse.hpp:162-173 *)
Record option_ := { names : list str; act : action; typ : type; dest : str; default : str; choices : list str; env : str }.
(** optparse.hpp:184, with the initial values of the members *)
Definition fresh (ns : list str) : option_ :=
  {| names := ns; act := Null; typ := TString; dest := []; default := []; choices := []; env := [] |}.
(** What the setters (optparse.hpp:190-255) make of an option: anything, except that the names stay. *)
Definition configured (o c : option_) : option_ :=
  {| names := names o; act := act c; typ := typ c; dest := dest c; default := default c; choices := choices c; env := env c |}.
Inductive handler := OnError | OnReplace.
Inductive opt_type := ShortOpt | LongOpt | InvalidOpt.
(** optparse.hpp:299-310, without help texts.  [invalid]: positions in argv. *)
Record parser := { prefix : Z; long_prefix : str; argc : Z; program : str; version : str; options : list option_;
                   long_map : list (str * nat); short_map : list (str * nat); invalid : list nat; conflict : handler }.
Definition new_parser (c : Z) (lp : str) (h : handler) : parser :=
  {| prefix := c; long_prefix := lp; argc := 0; program := []; version := []; options := [];
     long_map := []; short_map := []; invalid := []; conflict := h |}.
(** optparse.hpp:322 OptionParser(), and optparse.cc:91-102.  '-' is 45. *)
Definition default_parser : parser := new_parser 45 [45; 45] OnError.
Definition prefix_parser (c : Z) : out parser :=
  if existsb (Z.eqb c) [45; 43; 35; 36; 38; 37] then Ok (new_parser c [c; c] OnError) else Throw LogicError.
Definition handler_parser (h : handler) : parser := new_parser 45 [45; 45] h.
Definition prefix_handler_parser (c : Z) (h : handler) : parser := new_parser c [45; 45] h.

Definition with_options (p : parser) (os : list option_) : parser :=
  {| prefix := prefix p; long_prefix := long_prefix p; argc := argc p; program := program p; version := version p; options := os;
     long_map := long_map p; short_map := short_map p; invalid := invalid p; conflict := conflict p |}.
Definition with_short (p : parser) (m : list (str * nat)) : parser :=
  {| prefix := prefix p; long_prefix := long_prefix p; argc := argc p; program := program p; version := version p; options := options p;
     long_map := long_map p; short_map := m; invalid := invalid p; conflict := conflict p |}.
Definition with_long (p : parser) (m : list (str * nat)) : parser :=
  {| prefix := prefix p; long_prefix := long_prefix p; argc := argc p; program := program p; version := version p; options := options p;
     long_map := m; short_map := short_map p; invalid := invalid p; conflict := conflict p |}.
Definition with_invalid (p : parser) (l : list nat) : parser :=
  {| prefix := prefix p; long_prefix := long_prefix p; argc := argc p; program := program p; version := version p; options := options p;
     long_map := long_map p; short_map := short_map p; invalid := l; conflict := conflict p |}.
Definition with_version (p : parser) (v : str) : parser :=
  {| prefix := prefix p; long_prefix := long_prefix p; argc := argc p; program := program p; version := v; options := options p;
     long_map := long_map p; short_map := short_map p; invalid := invalid p; conflict := conflict p |}.
Definition with_args (p : parser) (n : Z) (prog : str) : parser :=
  {| prefix := prefix p; long_prefix := long_prefix p; argc := n; program := prog; version := version p; options := options p;
     long_map := long_map p; short_map := short_map p; invalid := invalid p; conflict := conflict p |}.

(** optparse.cc:104-114; [opt[0]] of an empty string is its terminator *)
Definition extract_option_type (p : parser) (opt : str) : opt_type :=
  if (2 <? length opt)%nat && seqb (substr 0 2 opt) (long_prefix p) then LongOpt
  else if nth 0 opt 0 =? prefix p then ShortOpt else InvalidOpt.
(** optparse.cc:116-124 *)
Definition extract_arg_type (p : parser) (arg : str) : opt_type :=
  if negb (starts_with arg (prefix p)) then InvalidOpt
  else if prefixb (long_prefix p) arg then LongOpt else ShortOpt.

(** optparse.cc:75-89: the option afterwards, and the result *)
Fixpoint first_long (p : parser) (ns : list str) : str :=
  match ns with
  | [] => []
  | n :: r => match extract_option_type p n with LongOpt => skipn 2 n | _ => first_long p r end
  end.
Definition is_null (a : action) : bool := match a with Null => true | _ => false end.
Definition is_choice (t : type) : bool := match t with TChoice => true | _ => false end.
Definition nullb {A} (l : list A) : bool := match l with [] => true | _ => false end.
Definition validate (p : parser) (o : option_) : option_ * bool :=
  let d := if nullb (dest o) then first_long p (names o) else dest o in
  ({| names := names o; act := act o; typ := typ o; dest := d; default := default o; choices := choices o; env := env o |},
   negb (nullb (names o) || is_null (act o) || nullb d || (negb (is_choice (typ o)) && negb (nullb (choices o))))).

(** optparse.cc:126-149, the loop: the names of the last option are registered *)
Fixpoint register (p : parser) (ns : list str) : parser * option exn :=
  match ns with
  | [] => (p, None)
  | n :: r =>
      match extract_option_type p n with
      | ShortOpt =>
          if (match conflict p with OnError => true | OnReplace => false end) && contains (short_map p) n then (p, Some LogicError)
          else register (with_short p (put n (length (options p) - 1)%nat (short_map p))) r
      | LongOpt =>
          if (match conflict p with OnError => true | OnReplace => false end) && contains (long_map p) n then (p, Some LogicError)
          else register (with_long p (put n (length (options p) - 1)%nat (long_map p))) r
      | InvalidOpt => (p, Some LogicError)
      end
  end.
Definition add_option (p : parser) (ns : list str) : parser * option exn :=
  register (with_options p (options p ++ [fresh ns])) ns.
(** The setters on option number [i] *)
Fixpoint alter {A} (i : nat) (f : A -> A) (l : list A) : list A :=
  match l, i with [], _ => [] | x :: r, O => f x :: r | x :: r, S j => x :: alter j f r end.
Definition configure (p : parser) (i : nat) (c : option_) : parser :=
  with_options p (alter i (fun o => configured o c) (options p)).

(** optparse.cc:161-198 *)
Definition flag (d : str) : option_ :=
  {| names := []; act := StoreTrue; typ := TBool; dest := d; default := []; choices := []; env := [] |}.
Definition add_flag (p : parser) (short : Z) (name : str) : out parser :=
  let s := [prefix p; short] in
  let l := long_prefix p ++ name in
  if negb (contains (short_map p) s) && negb (contains (long_map p) l) then
    match add_option p [s; l] with
    | (p1, None) => Ok (configure p1 (length (options p1) - 1) (flag name))
    | (_, Some e) => Throw e
    end
  else Ok p.
Definition s_usage : str := [117; 115; 97; 103; 101].
Definition s_help : str := [104; 101; 108; 112].
Definition s_version : str := [118; 101; 114; 115; 105; 111; 110].
Definition add_usage_option (p : parser) : out parser := add_flag p 117 s_usage.
Definition add_help_option (p : parser) : out parser := add_flag p 104 s_help.
Definition add_version_option (p : parser) (msg : str) : out parser := add_flag (with_version p msg) 118 s_version.

(** ** Reading values *)
Section Parse.
(** operator>> for float and double, of text that is not blank *)
Variable real : type -> str -> Z.
(** std::getenv *)
Variable getenv : str -> option str.

Fixpoint skip_blanks (s : str) : str := match s with [] => [] | c :: r => if blank c then skip_blanks r else s end.
(** num_get for integers, base ten: a sign, then digits; 0 without digits *)
Definition digit (c : Z) : bool := (48 <=? c) && (c <=? 57).
Fixpoint digits (s : str) (n : Z) : Z := match s with c :: r => if digit c then digits r (10 * n + (c - 48)) else n | [] => n end.
Definition integer (s : str) : Z :=
  match s with
  | 45 :: r => - digits r 0
  | 43 :: r => digits r 0
  | _ => digits s 0
  end.
Definition clamp (lo hi n : Z) : Z := Z.max lo (Z.min hi n).
(** optparse.cc:276-282: [val] has no value when nothing is extracted.  Failures of
    operator>> that store a value (0, or the nearest one) are not looked at. *)
Definition parse_string (t : type) (s : str) : out value :=
  match skip_blanks (cstr s) with
  | [] => Fault Uninit
  | x => Ok (match t with
             | TBool => VBool (negb (clamp (- 2 ^ 63) (2 ^ 63 - 1) (integer x) =? 0))
             | TInt => VInt (clamp (- 2 ^ 31) (2 ^ 31 - 1) (integer x))
             | TLong => VLong (clamp (- 2 ^ 63) (2 ^ 63 - 1) (integer x))
             | TFloat => VFloat (real t x)
             | _ => VDouble (real t x)
             end)
  end.
(** optparse.cc:286-313, always called with an option *)
Definition parse_value (v : str) (o : option_) : out (option value) :=
  match typ o with
  | TString => Ok (Some (VStr v))
  | TChoice => Ok (if member v (choices o) then Some (VStr v) else None)
  | t => do x <- parse_string t v; Ok (Some x)
  end.
(** optparse.cc:284; ',' is 44 *)
Definition is_multi_value (s : str) : bool := match find [44] s 0 with Some _ => true | None => false end.

(** optparse.cc:366-373 *)
Fixpoint append_all (o : option_) (st : vstore) (vs : list str) : out (vstore * bool) :=
  match vs with
  | [] => Ok (st, true)
  | v :: r =>
      do x <- parse_value v o;
      match x with Some y => append_all o (append_value st (dest o) y) r | None => Ok (st, false) end
  end.
(** optparse.cc:315-395 *)
Definition process_opt (o : option_) (st : vstore) (s : str) : out (vstore * bool) :=
  let store_ (st : vstore) := do x <- parse_value s o; match x with Some v => Ok (set_value st (dest o) v, true) | None => Ok (st, false) end in
  match act o with
  | Store => store_ st
  | StoreTrue => if nullb s then Ok (set_value st (dest o) (VBool true), true) else store_ st
  | StoreFalse => if nullb s then Ok (set_value st (dest o) (VBool false), true) else store_ st
  | Append =>
      if negb (is_multi_value s) then
        do x <- parse_value s o; match x with Some v => Ok (append_value st (dest o) v, true) | None => Ok (st, false) end
      else do vs <- split s [44] true; append_all o st vs
  | Count => do st1 <- increment st (dest o); Ok (st1, true)
  | Help | Version | Null => Throw LogicError
  end.

(** ** The argument list *)
(** optparse.hpp:274-294 *)
Record arg_list := { args : list str; it : nat }.
Definition empty (a : arg_list) : bool := (it a =? length (args a))%nat.
Definition peek (a : arg_list) : out str := match nth_error (args a) (it a) with Some s => Ok s | None => Fault BeyondArgs end.
Definition pop (a : arg_list) : out (str * arg_list) := do s <- peek a; Ok (s, {| args := args a; it := S (it a) |}).
Definition pos (a : arg_list) : nat := it a.
(** argv_span[i], the span being [n] long *)
Definition span_at (n : Z) (i : nat) : out nat := if Z.of_nat i <? n then Ok i else Fault BadIndex.

(** optparse.cc:413-415 *)
Definition has_value_to_process (p : parser) (cur : str) (a : arg_list) : out bool :=
  match find [61] cur 0 with
  | Some _ => Ok true
  | None => if empty a then Ok false else do s <- peek a; Ok (negb (starts_with s (prefix p)))
  end.
(** optparse.cc:417-428: the number of the option *)
Definition find_opt (p : parser) (name : str) : option nat :=
  if prefixb (long_prefix p) name then lookup name (long_map p)
  else if starts_with name (prefix p) then lookup name (short_map p) else None.

(** What a call of handle_opt works on. *)
Record work := { w_store : vstore; w_args : arg_list; w_invalid : list nat }.
(** optparse.cc:464-480 *)
Fixpoint run_values (fuel : nat) (p : parser) (n : Z) (o : option_) (w : work) : out work :=
  match fuel with
  | O => Fault NoFuel
  | S fuel' =>
      if empty (w_args w) then Ok w else
      do s <- peek (w_args w);
      if starts_with s (prefix p) then Ok w else
      do (v, a) <- pop (w_args w);
      match act o with
      | Append =>
          do (st, _) <- process_opt o (w_store w) v;
          run_values fuel' p n o {| w_store := st; w_args := a; w_invalid := w_invalid w |}
      | _ =>
          do i <- span_at n (pos a);
          run_values fuel' p n o {| w_store := w_store w; w_args := a; w_invalid := w_invalid w ++ [i] |}
      end
  end.
(** optparse.cc:430-484; [n] is the length of argv_span *)
Definition handle_opt (p : parser) (n : Z) (w : work) : out (work * bool) :=
  if empty (w_args w) then Ok (w, false) else
  do (front, a) <- pop (w_args w);
  let w1 := {| w_store := w_store w; w_args := a; w_invalid := w_invalid w |} in
  match find_opt p (trim_string (extract_opt_name front)) with
  | None => Ok (w1, false)
  | Some i =>
      match nth_error (options p) i with
      | None => Fault BadIndex
      | Some o =>
          do h <- has_value_to_process p front a;
          if negb h then
            match typ o with
            | TBool => do (st, _) <- process_opt o (w_store w) []; Ok ({| w_store := st; w_args := a; w_invalid := w_invalid w |}, true)
            | _ => Throw LogicError
            end
          else
            let rest (st : vstore) (a : arg_list) :=
              do w2 <- run_values (S (length (args a))) p n o {| w_store := st; w_args := a; w_invalid := w_invalid w |}; Ok (w2, true) in
            match extract_opt_value front with
            | [] =>
                if empty a then Ok (w1, false)
                else do (v, a1) <- pop a; do (st, _) <- process_opt o (w_store w) v; rest st a1
            | v => do (st, _) <- process_opt o (w_store w) v; rest st a
            end
      end
  end.
(** optparse.cc:232-246 *)
Fixpoint parse_loop (fuel : nat) (p : parser) (n : Z) (w : work) : out work :=
  match fuel with
  | O => Fault NoFuel
  | S fuel' =>
      if empty (w_args w) then Ok w else
      do front <- peek (w_args w);
      match extract_arg_type p front with
      | InvalidOpt =>
          do (_, a) <- pop (w_args w);
          do i <- span_at n (pos a);
          parse_loop fuel' p n {| w_store := w_store w; w_args := a; w_invalid := w_invalid w ++ [i] |}
      | _ =>
          do (w1, ok) <- handle_opt p n w;
          if ok then parse_loop fuel' p n w1
          else do i <- span_at n (pos (w_args w1));
               parse_loop fuel' p n {| w_store := w_store w1; w_args := w_args w1; w_invalid := w_invalid w1 ++ [i] |}
      end
  end.
(** optparse.cc:221-225 *)
Fixpoint validate_all (p : parser) (os : list option_) : out (list option_) :=
  match os with
  | [] => Ok []
  | o :: r =>
      match validate p o with
      | (o1, true) => do r1 <- validate_all p r; Ok (o1 :: r1)
      | (o1, false) => match names o1 with [] => Fault NoFront | _ => Throw LogicError end
      end
  end.
(** optparse.cc:247-255 *)
Fixpoint use_defaults (os : list option_) (st : vstore) : out vstore :=
  match os with
  | [] => Ok st
  | o :: r =>
      if negb (nullb (default o)) && negb (user_set st (dest o)) then
        do (st1, _) <- process_opt o st (default o); use_defaults r st1
      else use_defaults r st
  end.
(** optparse.cc:256-268 *)
Fixpoint use_env (os : list option_) (st : vstore) : out vstore :=
  match os with
  | [] => Ok st
  | o :: r =>
      if negb (nullb (env o)) && negb (user_set st (dest o)) then
        match getenv (cstr (env o)) with
        | Some v => do (st1, _) <- process_opt o st v; use_env r st1
        | None => use_env r st
        end
      else use_env r st
  end.
(** optparse.cc:218-271; _argc is converted to uint32_t *)
Definition parse_vector (p : parser) (av : list str) : out (parser * vstore) :=
  do os <- validate_all p (options p);
  do p1 <- add_usage_option (with_options (with_invalid p []) os);
  do p2 <- add_help_option p1;
  do p3 <- add_version_option p2 [];
  do w <- parse_loop (S (length av)) p3 (argc p3 mod 2 ^ 32) {| w_store := empty_store; w_args := {| args := av; it := 0 |}; w_invalid := [] |};
  let p4 := with_invalid p3 (w_invalid w) in
  do st1 <- use_defaults (options p4) (w_store w);
  do st2 <- use_env (options p4) st1;
  Ok (p4, st2).
(** optparse.cc:205-216; argc is the length of argv *)
Definition parse_args (p : parser) (argv : list str) : out (parser * vstore) :=
  match argv with
  | [] => Throw LogicError
  | a0 :: av => parse_vector (with_args p (Z.of_nat (length argv)) (if nullb (program p) then a0 else program p)) av
  end.
End Parse.

(** optparse.cc:626-641; _argv is null before parse_args(int, const char star star) *)
Definition invalid_args (p : parser) : list nat := invalid p.
Definition get_raw_argc (p : parser) : Z := Z.of_nat (length (invalid p)) + 1.
Definition get_raw_argv (p : parser) : out (list nat) := if argc p =? 0 then Fault Null_ else Ok (0%nat :: invalid p).
