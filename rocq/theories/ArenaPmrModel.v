(** The memory_resource objects of arenas: arena.hpp:157-162, 321-349, 353-363,
    369-378, 511-515, 540-550.  Here arenas are objects at addresses, which can
    be used again once an arena is destroyed; blocks are left out (ArenaModel). *)
Require Import ZArith List Bool.
From Verif Require Import Base ArenaModel.
Import ListNotations.
Open Scope Z_scope.

(** arena.hpp:347-348: what a memory_resource made by init() contains, and how
    often it was deleted. *)
Record resource := { r_arena : Z; r_deleted : nat }.

(** An Arena object: its address, whether it is not yet destroyed, _resource
    (the number of the memory_resource, [None] = nullptr).  [o_moved_from] is the
    object it was moved from, which the program does not store. *)
Record obj := { o_addr : Z; o_alive : bool; o_res : option nat; o_moved_from : option nat }.

Record pmr := { p_objs : list obj; p_res : list resource }.

Definition get_obj (s : pmr) (i : nat) : res obj :=
  match nth_error (p_objs s) i with
  | Some o => if o_alive o then Ok o else Undef
  | None => Undef
  end.

Inductive pop :=
| PNew (addr : Z) (ok : bool)      (* an arena constructed at [addr]; did operator new succeed? *)
| PMove (i : nat) (addr : Z)       (* one move-constructed at [addr] from arena [i] *)
| PDestroy (i : nat).

(** arena.hpp:353-363 + 540-550: constructor and init *)
Definition p_new (s : pmr) (addr : Z) (ok : bool) : pmr :=
  {| p_objs := p_objs s ++ [{| o_addr := addr; o_alive := true;
                               o_res := if ok then Some (length (p_res s)) else None; o_moved_from := None |}];
     p_res := p_res s ++ (if ok then [{| r_arena := addr; r_deleted := 0 |}] else []) |}.

(** arena.hpp:157-162 move constructor: std::exchange(other._resource, nullptr) *)
Definition p_move (s : pmr) (i : nat) (addr : Z) : res pmr :=
  do o <- get_obj s i;
  Ok {| p_objs := upd i {| o_addr := o_addr o; o_alive := true; o_res := None; o_moved_from := o_moved_from o |} (p_objs s) ++
          [{| o_addr := addr; o_alive := true; o_res := o_res o; o_moved_from := Some i |}];
        p_res := p_res s |}.

(** arena.hpp:377 delete _resource; deleting twice is undefined, deleting
    nullptr does nothing. *)
Definition p_delete (l : list resource) (r : option nat) : res (list resource) :=
  match r with
  | None => Ok l
  | Some k =>
      match nth_error l k with
      | Some x => match r_deleted x with
                  | O => Ok (upd k {| r_arena := r_arena x; r_deleted := 1 |} l)
                  | S _ => Undef
                  end
      | None => Undef
      end
  end.

(** arena.hpp:369-378 destructor *)
Definition p_destroy (s : pmr) (i : nat) : res pmr :=
  do o <- get_obj s i;
  do l <- p_delete (p_res s) (o_res o);
  Ok {| p_objs := upd i {| o_addr := o_addr o; o_alive := false; o_res := o_res o; o_moved_from := o_moved_from o |} (p_objs s);
        p_res := l |}.

Definition pstep (s : pmr) (o : pop) : res pmr :=
  match o with
  | PNew addr ok => Ok (p_new s addr ok)
  | PMove i addr => p_move s i addr
  | PDestroy i => p_destroy s i
  end.

(** arena.hpp:511-515 get_memory_resource *)
Definition get_memory_resource (debug : bool) (s : pmr) (i : nat) : res (option nat) :=
  do o <- get_obj s i;
  match o_res o with
  | None => if debug then AssertFail else Ok None
  | Some k => Ok (Some k)
  end.

(** A memory_resource a client may compare: one made by an arena, one the client
    made or copied itself (its _arena), or one of another class. *)
Inductive handle := HArena (k : nat) | HOwn (addr : Z) | HForeign.

(** arena.hpp:327 get_arena; reading a deleted resource is undefined. *)
Definition get_arena_of (s : pmr) (h : handle) : res (option Z) :=
  match h with
  | HArena k =>
      match nth_error (p_res s) k with
      | Some x => match r_deleted x with O => Ok (Some (r_arena x)) | S _ => Undef end
      | None => Undef
      end
  | HOwn addr => Ok (Some addr)
  | HForeign => Ok None
  end.

(** arena.hpp:337-345 do_is_equal; the call is on a memory_resource of an
    arena, the dynamic_cast of a foreign one throws and is caught. *)
Definition do_is_equal (s : pmr) (this other : handle) : res bool :=
  do a <- get_arena_of s this;
  do b <- get_arena_of s other;
  match a, b with
  | Some x, Some y => Ok (x =? y)
  | _, _ => Ok false
  end.

Definition pinit : pmr := {| p_objs := []; p_res := [] |}.
