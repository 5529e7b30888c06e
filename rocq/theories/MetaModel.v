(** Model of the compile-time helpers: src/utki/variant.hpp:36-57 (index_of), src/utki/utility.hpp:131-141
    (offset_sequence), src/utki/type_traits.hpp:172-281.  A program that does not compile is [None]. *)
From Verif Require Import Base.

(** ** C++ types: an object type with its cv-qualifiers, or a reference to one. *)
Inductive otype :=
| Fundamental (n : nat)
| Enum (n : nat) (scoped : bool)
| Pointer (t : qtype)
| Special (template : nat) (args : list qtype)  (* a specialization of a class template *)
with qtype := Q (is_const is_volatile : bool) (t : otype).
Inductive type := Obj (t : qtype) | LRef (t : qtype) | RRef (t : qtype).

(** std::remove_const, remove_volatile, remove_cv, remove_reference, remove_pointer, is_const *)
Definition remove_const (t : type) : type :=
  match t with Obj (Q _ v o) => Obj (Q false v o) | t => t end.
Definition remove_cv (t : type) : type :=
  match t with Obj (Q _ _ o) => Obj (Q false false o) | t => t end.
Definition remove_reference (t : type) : type :=
  match t with LRef q | RRef q => Obj q | t => t end.
Definition remove_pointer (t : type) : type :=
  match t with Obj (Q _ _ (Pointer q)) => Obj q | t => t end.
(** std::remove_cvref of C++20 *)
Definition remove_cvref (t : type) : type := remove_cv (remove_reference t).

(** type_traits.hpp:172-179 *)
Definition remove_const_pointer (t : type) : type := remove_const (remove_pointer t).
(** type_traits.hpp:184-192 *)
Definition remove_const_reference (t : type) : type := remove_const (remove_reference t).

(** type_traits.hpp:236-250: the primary template and the partial specialization for [template<args...>] *)
Definition is_specialization_of (template : nat) (t : type) : bool :=
  match t with
  | Obj (Q false false (Special t' _)) => Nat.eqb t' template
  | _ => false
  end.

(** type_traits.hpp:267-279.  std::is_enum looks through cv-qualifiers; an unscoped enumeration converts to its
    underlying type, a scoped one does not. *)
Definition is_enum (t : type) : bool := match t with Obj (Q _ _ (Enum _ _)) => true | _ => false end.
Definition converts_to_underlying (t : type) : bool :=
  match t with Obj (Q _ _ (Enum _ scoped)) => negb scoped | _ => false end.
Definition is_scoped_enum (t : type) : bool := if is_enum t then negb (converts_to_underlying t) else false.

(** type_traits.hpp:201-230: substitution fails when there is no member [type] that can be named there. *)
Inductive member := NoMember | Inaccessible (t : type) | Accessible (t : type).
Definition substitute (m : member) : option type := match m with Accessible t => Some t | _ => None end.
Definition is_type_defined (m : member) : bool := match substitute m with Some _ => true | None => false end.
Definition type_or_void (void : type) (m : member) : type := match substitute m with Some t => t | None => void end.

(** ** variant.hpp:36-57 *)
(** The converting constructor of std::variant<tag<item>...> picks the alternative by overload resolution among one
    function per alternative; [tag<indexed>] converts to [tag<item>] only if these are the same type.  More than one
    viable function of the same rank is ambiguous, none is an error. *)
Section IndexOf.
Context {T : Type}.
Variable same_type : T -> T -> bool.
Fixpoint viable (indexed : T) (k : nat) (items : list T) : list nat :=
  match items with
  | [] => []
  | item :: items => if same_type indexed item then k :: viable indexed (S k) items else viable indexed (S k) items
  end.
Definition index_of (indexed : T) (items : list T) : option nat :=
  match viable indexed 0 items with [k] => Some k | _ => None end.
End IndexOf.

(** ** utility.hpp:131-141; indices are of type size_t. *)
Definition offset_sequence (offset : N) (indices : list N) : list N :=
  map (fun i => ((i + offset) mod 2 ^ 64)%N) indices.
