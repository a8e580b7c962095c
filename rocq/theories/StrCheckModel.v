(** The thread checks of strings in builds with CROSS_THREAD_CHECKING and without
    NDEBUG: the member cpu_ of /repo/string/string.hpp (676) and
    /repo/string/arena_string.hpp (482), and what reads and writes it.

    Of a string only its tag cpu_ and, if it is large, the buffer it refers to
    are kept; the count of a buffer is the number of strings that refer to it
    (C35 and C74 say that it is).  Calls are steps; any thread may make any call
    on any string.  A failed Assert ends the program; the logic_error thrown when
    an arena string is copied leaves everything as it was. *)
Require Import List Bool Arith.
Import ListNotations.

Definition tid := nat.
(** string.hpp:676 std::optional<std::thread::id> cpu_;
    arena_string.hpp:482 std::thread::id cpu_ (always [Some] here). *)
Record str := Str { s_buf : option nat; s_cpu : option tid }.
(** The strings ([None]: destroyed) and the number of buffers made so far. *)
Record cst := Cst { c_objs : list (option str); c_bufs : nat }.
Definition cinit : cst := Cst [] 0.

(** Calls on strings by number.  Assignment from characters to a string, and
    what shrinks a shared one (string.hpp:1007, 1287, 1801), make a new string,
    swap it in and destroy the old one; move assignment (1781-1792) destroys and
    moves.  [Unshare]: mutableDataLarge, reserveLarge (843-880). *)
Inductive cop :=
| New (large : bool)
| Copy (i : nat)
| Move (i : nat)
| Destroy (i : nat)
| Clone (i : nat)
| Unshare (i : nat)
| Swap (i j : nat).

(** Accesses to the count of buffer [b] by thread [t] when it is [n]. *)
Inductive access := Inc (b : nat) (t : tid) (n : nat) | Dec (b : nat) (t : tid) (n : nat) | Look (b : nat) (t : tid) (n : nat).

Inductive coutcome := Went (s : cst) (log : list access) | Refused | NoString.

Fixpoint put {A} (l : list A) (i : nat) (x : A) : list A :=
  match l, i with
  | [], _ => []
  | _ :: r, O => x :: r
  | y :: r, S k => y :: put r k x
  end.
Definition refers_to (b : nat) (o : option str) : bool :=
  match o with Some (Str (Some c) _) => c =? b | _ => false end.
Definition refs (s : cst) (b : nat) : nat := length (filter (refers_to b) (c_objs s)).
Definition str_at (s : cst) (i : nat) : option str :=
  match nth_error (c_objs s) i with Some o => o | None => None end.
Definition is_mine (c : option tid) (t : tid) : bool := match c with Some u => u =? t | None => false end.
(** "not cpu_.has_value() or cpu_.value() == thread_id" *)
Definition passes (c : option tid) (t : tid) : bool := match c with Some u => u =? t | None => true end.

(** string.hpp:333-362 and arena_string.hpp:98-127, copy constructor: the tags of
    the original and of the copy afterwards, if the check passes. *)
Definition copy_tags (arena : bool) (c : option tid) (t : tid) : option (option tid * option tid) :=
  if arena then if is_mine c t then Some (c, Some t) else None
  else if passes c t then Some (match c with None => (Some t, Some t) | Some _ => (c, None) end) else None.

Definition cstep (arena : bool) (s : cst) (t : tid) (o : cop) : coutcome :=
  let here i k := match str_at s i with Some x => k x | None => NoString end in
  let objs := c_objs s in
  match o with
  (* string.hpp:378-391, arena_string.hpp:145-169 *)
  | New large =>
      Went (Cst (objs ++ [Some (Str (if large then Some (c_bufs s) else None) (if arena then Some t else None))])
                (if large then S (c_bufs s) else c_bufs s)) []
  | Copy i => here i (fun x =>
      match copy_tags arena (s_cpu x) t with
      | None => Refused
      | Some (old, new) =>
          Went (Cst (put objs i (Some (Str (s_buf x) old)) ++ [Some (Str (s_buf x) new)]) (c_bufs s))
               (match s_buf x with Some b => [Inc b t (refs s b)] | None => [] end)
      end)
  (* string.hpp:366-375: no check, the tag goes along (and stays behind);
     arena_string.hpp:131-143: checked when shared, new tag *)
  | Move i => here i (fun x =>
      let left := put objs i (Some (Str None (s_cpu x))) in
      if arena then
        if is_mine (s_cpu x) t then Went (Cst (left ++ [Some (Str (s_buf x) (Some t))]) (c_bufs s)) []
        else match s_buf x with
             | None => Went (Cst (left ++ [Some (Str None (Some t))]) (c_bufs s)) []
             | Some b => if 1 <? refs s b then Refused
                         else Went (Cst (left ++ [Some (Str (Some b) (Some t))]) (c_bufs s)) [Look b t (refs s b)]
             end
      else Went (Cst (left ++ [Some x]) (c_bufs s)) [])
  (* string.hpp:393-403, arena_string.hpp:171-180 *)
  | Destroy i => here i (fun x =>
      if (if arena then is_mine (s_cpu x) t else passes (s_cpu x) t)
      then Went (Cst (put objs i None) (c_bufs s)) (match s_buf x with Some b => [Dec b t (refs s b)] | None => [] end)
      else Refused)
  (* string.hpp:1188-1217: the tags of a copy are undone.  Does not compile for
     arena strings in these builds (cpu_ has no swap). *)
  | Clone i => here i (fun x =>
      if arena then Refused else
      if passes (s_cpu x) t then
        match s_buf x with
        | None => Went (Cst (objs ++ [Some (Str None None)]) (c_bufs s)) []
        | Some b => Went (Cst (objs ++ [Some (Str (Some (c_bufs s)) None)]) (S (c_bufs s))) [Inc b t (refs s b); Dec b t (S (refs s b))]
        end
      else Refused)
  (* string.hpp:843-865; arena_string.hpp: the same *)
  | Unshare i => here i (fun x =>
      match s_buf x with
      | None => Went s []
      | Some b => if 1 <? refs s b
                  then Went (Cst (put objs i (Some (Str (Some (c_bufs s)) (s_cpu x)))) (S (c_bufs s))) [Look b t (refs s b); Dec b t (refs s b)]
                  else Went s [Look b t (refs s b)]
      end)
  (* string.hpp:432-439, arena_string.hpp:186-193 *)
  | Swap i j => here i (fun x => here j (fun y => Went (Cst (put (put objs i (Some y)) j (Some x)) (c_bufs s)) []))
  end.
