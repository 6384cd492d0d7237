(** Generated by tools/gen_props.py from Main11.v: statements of the properties.
    Every theorem is closed by [exact]; its assumptions are printed beneath it. *)
From Coq Require Import Arith NArith ZArith List Bool Lia String.
From Verif Require Import Base Tables Model Spec ModelAcc SpecAcc Acc Main11.
Import ListNotations.
Local Open Scope list_scope.

(** C63: on a little-endian machine the self test prints the text [all_pass], whatever the
    clock, the generator, the number of rounds TEST and the garbage in its local variables. *)
Theorem C63_all_pass : forall n g s, typed_locals g ->
  exists out s', accuracy_main LE n g s = Ok (out, s') /\ String.concat "" out = all_pass.
Proof. exact C63_all_pass_main. Qed.
Print Assumptions C63_all_pass.

(** C63: on a big-endian machine the six concatenation tests fail, and only these. *)
Theorem C63_big_endian : forall n g s, typed_locals g ->
  exists out s', accuracy_main BE n g s = Ok (out, s') /\ String.concat "" out = com_fails.
Proof. exact C63_big_endian_main. Qed.
Print Assumptions C63_big_endian.

(** C63: locals full of ones satisfy the hypothesis; and a loop of the self test does notice a
    wrong result: a round that fails makes it print ERROR. *)
Example C63_ex :
  (exists g, typed_locals g /\ l_mat g 0 W8 0 = repeat [255%N] 8) /\
  (exists s s', acc_mulnum LE W8 3 (fun _ => repeat [255%N] 8) s = Ok (true, s')) /\
  fst (match acc_loop 3 (fun k => Ok (S k, negb (Nat.eqb k 1))) 0 with Ok r => r | UB => (true, 9) end) = false.
Proof. exact C63_ex_main. Qed.
