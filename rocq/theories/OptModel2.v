(** The option parser, continued: typed access to the values found
    (optparse/optparse.hpp:110-136) and the texts for usage, version and help
    (optparse/optparse.cc:551-624).  fmt::format of strings is concatenation.  The help
    texts of the options and the usage text, which are no part of [parser], are
    arguments here; the help text of option number [i] is [help i]. *)
Require Import ZArith List Bool.
From Verif Require Import OptModel.
Import ListNotations.
Open Scope Z_scope.

(** ** Typed access *)
(** The alternatives of Value, optparse.hpp:53. *)
Inductive alt := ABool | AInt | ALong | AFloat | ADouble | AString.
Definition holds (a : alt) (v : value) : bool :=
  match a, v with
  | ABool, VBool _ | AInt, VInt _ | ALong, VLong _ | AFloat, VFloat _ | ADouble, VDouble _ | AString, VStr _ => true
  | _, _ => false
  end.
(** get<T> is noexcept: bad_variant_access ends the program. *)
Inductive answer := Answer (v : option value) | Terminate.
(** optparse.hpp:110-116 *)
Definition get_as (a : alt) (st : vstore) (k : str) : answer :=
  match lookup k (values st) with
  | Some v => if holds a v then Answer (Some v) else Terminate
  | None => Answer None
  end.
(** optparse.hpp:125-136 *)
Fixpoint all_as (a : alt) (l : list value) (done : list value) : out (list value) :=
  match l with
  | [] => Ok done
  | v :: r => if holds a v then all_as a r (done ++ [v]) else Throw BadVariant
  end.
Definition get_list_as (a : alt) (st : vstore) (k : str) : out (option (list value)) :=
  match get_list st k with
  | Some l => do r <- all_as a l []; Ok (Some r)
  | None => Ok None
  end.

(** ** Texts *)
(** std::toupper in the "C" locale *)
Definition upper (c : Z) : Z := if (97 <=? c) && (c <=? 122) then c - 32 else c.
(** optparse.cc:551-554 *)
Definition to_upper (s : str) : str := map upper s.
(** names().front() *)
Definition front (ns : list str) : out str := match ns with n :: _ => Ok n | [] => Fault NoFront end.
(** "usage: ", "0.0.0" *)
Definition s_usage_ : str := [117; 115; 97; 103; 101; 58; 32].
Definition s_zero : str := [48; 46; 48; 46; 48].
(** optparse.cc:560-570 *)
Fixpoint usage_loop (os : list option_) (u : str) : out str :=
  match os with
  | [] => Ok u
  | o :: r =>
      match typ o with
      | TBool => do n <- front (names o); usage_loop r (u ++ [32; 91] ++ n ++ [32] ++ to_upper (dest o) ++ [93])
      | _ => do n <- front (names o); usage_loop r (u ++ [32; 91] ++ n ++ [93])
      end
  end.
(** optparse.cc:556-574: the result, which is also what _usage is afterwards; [u] is _usage before *)
Definition format_usage (p : parser) (u : str) : out str :=
  if nullb u then do x <- usage_loop (options p) (s_usage_ ++ program p); Ok (x ++ [10]) else Ok u.
(** optparse.cc:576-581: the result, and the parser afterwards *)
Definition format_version (p : parser) : str * parser :=
  let v := if nullb (version p) then program p ++ [32; 58; 32] ++ s_zero else version p in (v, with_version p v).
(** optparse.cc:583-596 *)
Fixpoint more_names (ns : list str) (m : str) : str := match ns with [] => m | n :: r => more_names r (m ++ [44; 32] ++ n) end.
Definition format_opt_names (ns : list str) : out str :=
  match ns with [] => Throw LogicError | n :: r => Ok (more_names r n) end.
(** optparse.hpp:394-427 *)
Definition type_text (t : type) : str :=
  match t with
  | TBool => [98; 111; 111; 108] | TInt => [105; 110; 116] | TLong => [108; 111; 110; 103] | TFloat => [102; 108; 111; 97; 116]
  | TDouble => [100; 111; 117; 98; 108; 101] | TChoice => [99; 104; 111; 105; 99; 101] | TString => [115; 116; 114; 105; 110; 103]
  end.
(** optparse.cc:601-605; [i] is the number of the first option *)
Fixpoint lines_of (help : nat -> str) (os : list option_) (i : nat) : out (list (str * str)) :=
  match os with
  | [] => Ok []
  | o :: r =>
      do n <- format_opt_names (names o);
      do ls <- lines_of help r (S i);
      Ok ((n ++ [61; 60] ++ type_text (typ o) ++ [62], help i) :: ls)
  end.
(** optparse.cc:607-609, std::max_element: the first of the longest *)
Fixpoint max_line (best : str * str) (ls : list (str * str)) : str * str :=
  match ls with
  | [] => best
  | l :: r => if (length (fst best) <? length (fst l))%nat then max_line l r else max_line best r
  end.
(** optparse.cc:613-617; a negative number of blanks would be a fault.  (space_width is an int:
    lines are taken to be shorter than 2^31.) *)
Fixpoint help_loop (align : nat) (ls : list (str * str)) (c : str) : out str :=
  match ls with
  | [] => Ok c
  | (l, h) :: r =>
      if (align <? length l)%nat then Fault Overflow
      else help_loop align r (c ++ [32; 32] ++ l ++ repeat 32 (align - length l) ++ h ++ [10])
  end.
(** " \n options: \n" *)
Definition s_options : str := [32; 10; 32; 111; 112; 116; 105; 111; 110; 115; 58; 32; 10].
(** optparse.cc:598-619: the result and _usage afterwards; without options the result of
    max_element is end(), which is dereferenced *)
Definition format_help (p : parser) (help : nat -> str) (u : str) : out (str * str) :=
  do ls <- lines_of help (options p) 0;
  match ls with
  | [] => Fault BadIndex
  | l0 :: r =>
      let align := S (length (fst (max_line l0 r))) in
      do us <- format_usage p u;
      do c <- help_loop align ls (us ++ s_options);
      Ok (c, us)
  end.
