(** Specification side for the memory management of M4RI (ModelMem.v): what the system's allocator is
    assumed to do, and when regions of memory are separate. *)
From Coq Require Import Arith ZArith List Bool.
Import ListNotations.
Open Scope Z_scope.

(** a region: address and size; a region of size 0 still has an address of its own *)
Definition region := (Z * Z)%type.
Definition separate (a b : region) : Prop :=
  fst a + Z.max 1 (snd a) <= fst b \/ fst b + Z.max 1 (snd b) <= fst a.
(** all of a list are separate from each other *)
Inductive apart : list region -> Prop :=
| apart_nil : apart []
| apart_cons : forall a l, (forall b, In b l -> separate a b) -> apart l -> apart (a :: l).

(** The allocator: never null, and away from all that is in use and from what is static *)
Definition alloc_ok (static : list region) (al : nat -> list region -> Z -> Z) : Prop :=
  forall k l size, 0 <= size ->
    0 < al k l size /\ forall r, In r static \/ In r l -> separate (al k l size, size) r.
(** regions in use by the system: addresses are not null *)
Definition regions_ok (static l : list region) : Prop :=
  apart (static ++ l) /\ forall r, In r (static ++ l) -> 0 < fst r /\ 0 <= snd r.

(** n of the numbers 0 .. k-1 satisfy f *)
Fixpoint count (f : nat -> bool) (k : nat) : Z :=
  match k with
  | O => 0
  | S k => count f k + (if f k then 1 else 0)
  end.
