(** The types that arenas build and what the library decides about them at
    compile time (arena/arenahelper.hpp:36-117, arena.hpp:84-121, 373-376,
    429-475, 593-612, 672-687).

    A type is described by what the traits look at.  Left out: several direct
    bases, virtual bases, cv-qualified types and references, types that cannot
    be destroyed. *)
Require Import ZArith List Bool.
From Verif Require Import Base ArenaSpec ArenaModel.
Import ListNotations.
Open Scope Z_scope.

Inductive access := Public | Private.

(** What Construct passes in front of, or after, the arguments. *)
Inductive given := Resource | ThisArena | Nothing.

(** [i_skip] and [i_full]: whether the class itself declares
    ArenaManagedSkipDestruct_ and ArenaManaged_ (arenahelper.hpp:42-43), and
    where; [i_dtor]: the destructor is user-provided or virtual; [i_trivial]:
    std::is_trivial and std::is_standard_layout; [i_alloc], [i_arena]: whether
    the arguments of this call of Create followed by an allocator, preceded by
    the arena, fit a constructor; [i_pmr]: an allocator alone does; [i_variant]:
    a std::variant (the requires-expression of VariantWithString, arena.hpp:100-102,
    names holds_alternative without instantiating it, so it holds of every
    std::variant); [i_ctor]: what the constructor does with the arena. *)
Record info := {
  i_size : Z; i_align : Z; i_id : Z;
  i_skip : option access; i_full : option access;
  i_dtor : bool; i_trivial : bool;
  i_alloc : bool; i_arena : bool; i_pmr : bool; i_variant : bool;
  i_ctor : given -> list op }.

Inductive ctype := CType (own : info) (base : option (access * ctype)) (members : list ctype).
Definition own (T : ctype) : info := let 'CType x _ _ := T in x.

(** Whether [typename U::Tag] is well-formed outside the class: the declaration
    in the class hides that of the base; a name that is found but not
    accessible makes the substitution fail. *)
Fixpoint tag_seen (tag : info -> option access) (T : ctype) : bool :=
  let 'CType x base _ := T in
  match tag x with
  | Some Public => true
  | Some Private => false
  | None => match base with Some (Public, B) => tag_seen tag B | _ => false end
  end.

(** std::is_trivially_destructible. *)
Fixpoint trivially_destructible (T : ctype) : bool :=
  let 'CType x base members := T in
  negb (i_dtor x) &&
  match base with Some (_, B) => trivially_destructible B | None => true end &&
  (fix all (l : list ctype) : bool := match l with [] => true | M :: l => trivially_destructible M && all l end) members.

(** arenahelper.hpp:70-78 *)
Definition is_destructor_skippable (T : ctype) : bool := tag_seen i_skip T || trivially_destructible T.
(** arenahelper.hpp:80-86, 101-103 *)
Definition is_arena_full_managable (T : ctype) : bool := tag_seen i_full T.
(** arenahelper.hpp:108-112 *)
Definition Constructable (T : ctype) : bool := is_arena_full_managable T || is_destructor_skippable T.
Definition NonConstructable (T : ctype) : bool := negb (is_arena_full_managable T).
(** arena.hpp:108-110 *)
Definition Creatable (T : ctype) : bool :=
  Constructable T || i_trivial (own T) || i_pmr (own T) || i_variant (own T).

(** arena.hpp:84-95 arena_destruct_object<T>, arena_delete_object<T>. *)
Definition arena_destruct_object (T : ctype) : Z := 2 * i_id (own T).
Definition arena_delete_object (T : ctype) : Z := 2 * i_id (own T) + 1.

(** arena.hpp:676-687 *)
Definition Construct (T : ctype) : list op :=
  if i_alloc (own T) then i_ctor (own T) Resource
  else if i_arena (own T) then i_ctor (own T) ThisArena
  else i_ctor (own T) Nothing.

(** arena.hpp:593-612 RegisterDestructor: the cleanup to be added, if any. *)
Definition RegisterDestructor (T : ctype) : option Z :=
  if is_destructor_skippable T then None else Some (arena_destruct_object T).

(** The calls, [None] where they do not compile: arena.hpp:429-444 Create, *)
Definition CreateT (T : ctype) : option op :=
  if Creatable T then Some (OCreate (i_size (own T)) (i_id (own T)) (RegisterDestructor T) (Construct T)) else None.
(** 452-475 CreateArray (constructors that do not use the arena; others: ArenaCtorModel.v), *)
Definition CreateArrayT (T : ctype) (num : Z) : option op :=
  if Creatable T && trivially_destructible T then Some (OCreateArray (i_size (own T)) num (i_id (own T))) else None.
(** 373-376 Own. *)
Definition OwnT (T : ctype) (obj : Z) : option op :=
  if NonConstructable T then Some (OOwn obj (arena_delete_object T)) else None.
