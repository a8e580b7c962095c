(** What a client must respect for the arena theorems, in API terms. *)
Require Import ZArith List Bool.
From Verif Require Import Base ArenaSpec ArenaModel.
Import ListNotations.
Open Scope Z_scope.

(** Block sizes are multiples of 8 (the comment in arena.cc asks for powers of
    two) and the normal block size is not zero. *)
Definition good_options (o : options) : Prop :=
  (word (o_normal o) /\ o_normal o mod 8 = 0 /\ 0 < o_normal o) /\
  (word (o_huge o) /\ o_huge o mod 8 = 0) /\
  (word (o_init o) /\ o_init o mod 8 = 0).

(** Request sizes at most [max_request], alignments at most that of the
    blocks; the same for everything a constructor does. *)
Fixpoint op_ok (A : Z) (o : op) : Prop :=
  match o with
  | OAllocate bytes al => 0 <= bytes <= max_request /\ alignment_ok A al
  | OAllocateCleanup bytes _ _ => 0 <= bytes <= max_request
  | OCreate sz _ _ body =>
      0 <= sz <= max_request /\
      (fix all (l : list op) : Prop := match l with [] => True | x :: r => op_ok A x /\ all r end) body
  | OCreateArray sz num _ => 0 < sz /\ 0 <= num /\ sz * num <= max_request
  | OOwn _ _ => True
  | OResource bytes al =>
      0 <= bytes <= max_request /\ (al = 1 \/ al = 2 \/ al = 4 \/ alignment_ok A al)
  end.

Fixpoint uses_resource (o : op) : bool :=
  match o with
  | OResource _ _ => true
  | OCreate _ _ _ body =>
      (fix any (l : list op) : bool := match l with [] => false | x :: r => uses_resource x || any r end) body
  | _ => false
  end.

Definition alive (s : sys) (i : nat) : Prop := exists a, nth_error (s_arenas s) i = Some (Some a).

(** get_memory_resource()->get_arena() exists and has not been destroyed. *)
Definition resource_alive (s : sys) (i : nat) : Prop :=
  exists a j, nth_error (s_arenas s) i = Some (Some a) /\ a_resource a = Some j /\ alive s j.

Definition permitted (A : Z) (s : sys) (o : sop) : Prop :=
  match o with
  | SNew opts => good_options opts
  | SOp i o => alive s i /\ op_ok A o /\ (uses_resource o = true -> resource_alive s i)
  | SReset i => exists a, nth_error (s_arenas s) i = Some (Some a) /\ 0 < SpaceAllocated a
  | SMove i | SDestroy i => alive s i
  end.

(** States reachable by permitted operations. *)
Inductive reach (e : env) (A : Z) : sys -> Prop :=
| reach_init : reach e A init
| reach_step s o s' r : reach e A s -> permitted A s o -> step e s o = Ok (s', r) -> reach e A s'.

(** The range promised by an operation that returned [p]. *)
Definition op_range (o : op) : option (Z * Z) :=
  match o with
  | OAllocate b al => Some (b, al)
  | OAllocateCleanup b _ _ => Some (b, 8)
  | OCreate sz _ _ _ => Some (sz, 8)
  | OCreateArray sz num _ => Some (num * sz, 8)
  | OOwn _ _ => None
  | OResource b al => Some (b, Z.max 8 al)
  end.

(** The arena that serves the operation: the one it is called on, except that
    a memory_resource allocates from the arena it points to. *)
Definition served_by (s : sys) (i : nat) (o : op) (j : nat) : Prop :=
  match o with
  | OResource _ _ => exists a, nth_error (s_arenas s) i = Some (Some a) /\ a_resource a = Some j
  | _ => j = i
  end.

(** Bytes of a block neither allocated nor holding cleanup records. *)
Definition unused (b : block) : Z := b_limit b - b_pos b.
Definition total_unused (l : list block) : Z := fold_right (fun b s => unused b + s) 0 l.

Definition hook_part (cond : bool) (ev : event) : history := if cond then [ev] else [].

(** The allocation report due for an operation returning [r]. *)
Definition alloc_report (o : op) (i : nat) (cookie r : Z) : list event :=
  if r =? 0 then [] else
  match o with
  | OAllocate bytes _ | OAllocateCleanup bytes _ _ => [HAlloc i 0 bytes cookie]
  | OCreate sz ty _ _ => [HAlloc i ty sz cookie]
  | OCreateArray sz num ty => [HAlloc i ty (sz * num) cookie]
  | OOwn _ _ | OResource _ _ => []
  end.

(** Operations whose constructor does not itself use the arena and that do not go through the memory_resource. *)
Definition flat (o : op) : Prop :=
  match o with OResource _ _ => False | OCreate _ _ _ (_ :: _) => False | _ => True end.


(** The bytes an operation needs in a block: the least multiple of 8 covering
    the request; a cleanup record takes 16. *)
Definition room_need (o : op) (need : Z) : Prop :=
  match o with
  | OAllocate b _ => b <= need < b + 8 /\ need mod 8 = 0
  | OCreateArray sz num _ => sz * num <= need < sz * num + 8 /\ need mod 8 = 0
  | OOwn _ _ => need = 16
  | _ => False
  end.

(** Operations that make a single request to the current block. *)
Definition simple (o : op) : Prop :=
  match o with OAllocate _ _ | OCreateArray _ _ _ | OOwn _ _ | OResource _ _ => True | _ => False end.

