(** Notions used in the statements about the generators of the test programs. *)
From Coq Require Import Arith NArith List Bool.
From Verif Require Import Base Tables Model ModelGen.
Import ListNotations.

(** matrix number k drawn by successive calls of randM, and the generator after it *)
Fixpoint nth_draw (e : endian) (w : width) (k : nat) (temp0 : mat) (s : world) : res (mat * world) :=
  match k with
  | O => randM e w temp0 s
  | S k' => ' (m, s') <- nth_draw e w k' temp0 s ;; randM e w m s'
  end.

(** The locals of the reverse LU generator before they are written. *)
Definition unwritten (w : width) : cells := repeat (repeat None (nw w)) (dim w).
(** local matrices that happen to hold given words *)
Definition holding (w : width) (g : mat) : cells := map (map Some) g.
