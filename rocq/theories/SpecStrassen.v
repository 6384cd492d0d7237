(** Specification of the Strassen products, independent of ModelStrassen.v *)
From Coq Require Import Arith NArith List Bool.
From Verif Require Import Base Spec ModelM4ri SpecM4ri.

(** The cutoffs and sizes with which the code works: the default cutoff, one of at least 128, or no
    dimension from 86 to 127 *)
Definition cuttable (cutoff d : nat) : Prop := cutoff = 0 \/ 128 <= cutoff \/ d < 86 \/ 128 <= d.
(** The entries of a matrix that may be NULL *)
Definition entry (C0 : option mzd) : fmat := match C0 with None => fun _ _ => false | Some C => bitat C end.
(** A matrix of these dimensions, or NULL *)
Definition valid_or_null (R C : nat) (C0 : option mzd) : Prop := forall M, C0 = Some M -> valid R C M.
