(** Reading strings from a stream: getline and operator>>.

    The stream is its remaining characters and its state bits.  Of the standard
    library, istream::getline(char*, streamsize, char) and istream::sentry are
    modelled after [istream.unformatted] and [istream.sentry].  Not modelled:
    stream buffers that throw or fail (badbit), exceptions() other than none, a
    locale other than "C", noskipws. *)
Require Import ZArith List Bool.
From Verif Require Import Base StrSpec StrModel.
Import ListNotations.
Open Scope Z_scope.


Section Wide.
Context {ChT : CharType}.

Record stream := Stream { inp : list Z; eofbit : bool; failbit : bool; badbit : bool; width : Z }.
Definition good_stream (st : stream) : bool := negb (eofbit st || failbit st || badbit st).
Definition setstate (st : stream) (e f : bool) : stream :=
  Stream (inp st) (eofbit st || e) (failbit st || f) (badbit st) (width st).
Definition clear_state (st : stream) : stream := Stream (inp st) false false false (width st).
Definition rest_of (st : stream) (l : list Z) : stream := Stream l (eofbit st) (failbit st) (badbit st) (width st).

(** istream::getline(p, room + 1, d): characters are stored until the end of the
    input, else a delimiter (removed, not stored), else [room] are stored. *)
Inductive ending := AtEof | AtDelim | AtFull.
Fixpoint scan (l : list Z) (room d : Z) : list Z * ending * list Z :=
  match l with
  | [] => ([], AtEof, [])
  | c :: r =>
      if c =? d then ([], AtDelim, r)
      else if room <=? 0 then ([], AtFull, l)
      else let '(s, e, rest) := scan r (room - 1) d in (c :: s, e, rest)
  end.
(** The characters stored, gcount() and the stream.  A stream that is not good
    gives nothing and gets failbit (the sentry). *)
Definition is_getline (st : stream) (room d : Z) : list Z * Z * stream :=
  if good_stream st then
    let '(s, e, rest) := scan (inp st) room d in
    let gc := match e with AtDelim => slen s + 1 | _ => slen s end in
    (s, gc, setstate (rest_of st rest) (match e with AtEof => true | _ => false end)
                     (match e with AtFull => true | _ => false end || (gc =? 0)))
  else ([], 0, setstate st false true).

Section Model.
Variables (dbg arena : bool) (mal : nat -> Z -> bool).
Notation expand_noinit := (expand_noinit dbg arena mal).
Notation resize := (resize dbg arena mal).
Notation reserve := (reserve dbg arena mal).
Notation erase := (erase dbg arena mal).
Notation push_back := (push_back dbg arena mal).
Notation assertM := (assertM dbg).

(** string.hpp:1925-1946: the loop of getlineImpl, [sz] being its local variable
    size.  [fuel] bounds the number of rounds; running out is no outcome of the
    code and shows as undefined behaviour. *)
Fixpoint getline_loop (fuel : nat) (d sz : Z) (st : stream) : M stream :=
  match fuel with
  | O => undef
  | S fuel' =>
      let* c := capacity in
      let avail := sub64 c sz in
      let* p := expand_noinit avail false in
      let '(s, gc, st1) := is_getline st avail d in
      let* _ := write p (map Some s) in
      let* _ := write (ptr_add p (slen s)) [Some 0] in
      let sz1 := add64 sz gc in
      if badbit st1 || eofbit st1 || negb (failbit st1) then
        let sz2 := if negb (badbit st1) && negb (eofbit st1) then sub64 sz1 1 else sz1 in
        let* _ := resize sz2 0 in
        ret st1
      else
        let* n := size_m in
        let* _ := assertM (sz1 =? n) in
        let* c1 := capacity in
        let* _ := assertM (sz1 =? c1) in
        let* _ := reserve (Z.max 63 (mul64 3 sz1 / 2)) in
        getline_loop fuel' d sz1 (clear_state st1)
  end.
(** string.hpp:1917-1948 getlineImpl, 1411-1415 getline *)
Definition getline (d : Z) (st : stream) : M stream := guarded dbg
  (let* _ := resize 0 0 in getline_loop (S (S (length (inp st)))) d 0 st).

(** isspace of the "C" locale *)
Definition isspace (c : Z) : bool := (c =? 32) || ((9 <=? c) && (c <=? 13)).
(** istream::sentry with skipws: blanks are removed; no success at the end of
    the input. *)
Fixpoint skip_blanks (l : list Z) : list Z :=
  match l with [] => [] | c :: r => if isspace c then skip_blanks r else l end.
Definition sentry (st : stream) : bool * stream :=
  if good_stream st then
    let r := skip_blanks (inp st) in
    match r with
    | [] => (false, setstate (rest_of st []) true true)
    | _ => (true, rest_of st r)
    end
  else (false, setstate st false true).
(** string.hpp:2519-2530: the loop of operator>>, [n] characters still allowed
    (npos - 1 of them, when no width is set, are more than a string can have).
    Returns how many were extracted, the stream, and whether the end was met. *)
Fixpoint extract_loop (l : list Z) (n extracted : Z) : M (Z * list Z * bool) :=
  if n =? 0 then ret (extracted, l, false) else
  match l with
  | [] => ret (extracted, [], true)
  | c :: r =>
      if isspace c then ret (extracted, l, false)
      else let* _ := push_back c in extract_loop r (n - 1) (extracted + 1)
  end.
(** string.hpp:2502-2540 operator>> *)
Definition extract (st : stream) : M stream :=
  let '(ok, st1) := sentry st in
  if ok then
    let n := if width st1 <=? 0 then M64 - 1 else width st1 in
    let* _ := erase 0 (M64 - 1) in
    let* (x, l, e) := extract_loop (inp st1) n 0 in
    let st2 := Stream l (eofbit st1) (failbit st1) (badbit st1) (if e then 0 else width st1) in
    ret (setstate st2 e (x =? 0))
  else ret (setstate st1 false true).

(** On object [i] of a system; the stream is the one given back, if any. *)
Definition on_stream (s : sys) (i : nat) (m : M stream) : sout * option stream :=
  match sget (s_objs s) i with
  | None => (SUB (s_heap s), None)
  | Some c =>
      match m (s_heap s) c with
      | Ret st h c1 => (SRet {| s_heap := h; s_objs := sset i (Some c1) (s_objs s) |}, Some st)
      | Thr e h c1 => (SThr e {| s_heap := h; s_objs := sset i (Some c1) (s_objs s) |}, None)
      | Term h1 => (STerm h1, None) | AFail => (SAFail, None) | UB h1 => (SUB h1, None)
      end
  end.
End Model.
End Wide.
