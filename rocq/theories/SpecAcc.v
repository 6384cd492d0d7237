(** What the self test (test/Accuracy_test.c) is expected to print, and what the C types
    say about its uninitialised local variables. *)
From Coq Require Import Arith NArith List Bool String.
From Verif Require Import Base Tables Model Spec ModelAcc.

Definition typed_locals (g : locals) : Prop :=
  (forall k w i, typedM w (l_mat g k w i) /\ typedV w (l_vec g k w i) /\
     typedM w (amat (l_aff g k w i)) /\ typedV w (avec (l_aff g k w i))) /\
  (forall c, typedM (com_tgt c) (amat (l_com g c)) /\ typedV (com_tgt c) (avec (l_com g c)) /\
     typedM (com_tgt c) (l_tgt g c) /\ forall i, typedM (com_src c) (l_src g c i)).

(** the output of a successful run *)
Definition all_pass : string :=
"-----bitwise operation (read/set/flip) test-----
4bit: PASS
8bit: PASS
16bit: PASS
32bit: PASS
64bit: PASS
128bit: PASS
256bit: PASS
-----mat mul num test-----
4bit: PASS
8bit: PASS
16bit: PASS
32bit: PASS
64bit: PASS
-----mat mul vec test-----
4bit: PASS
8bit: PASS
16bit: PASS
32bit: PASS
64bit: PASS
128bit: PASS
256bit: PASS
-----mat mul mat (includes mat transpositon) test-----
4bit: PASS
8bit: PASS
16bit: PASS
32bit: PASS
64bit: PASS
128bit: PASS
256bit: PASS
-----invertible and inverse test-----
4bit: PASS
8bit: PASS
16bit: PASS
32bit: PASS
64bit: PASS
128bit: PASS
256bit: PASS
-----invertible affine and affine transform test-----
4bit: PASS
8bit: PASS
16bit: PASS
32bit: PASS
64bit: PASS
128bit: PASS
-----affine mix test-----
4bit: PASS
8bit: PASS
16bit: PASS
32bit: PASS
64bit: PASS
128bit: PASS
-----affine concatenation test-----
8to32: PASS
8to64: PASS
8to128: PASS
16to64: PASS
32to128: PASS
16to128: PASS

ALL PASS!"%string.

(** the output when exactly the six concatenation tests fail *)
Definition com_fails : string :=
"-----bitwise operation (read/set/flip) test-----
4bit: PASS
8bit: PASS
16bit: PASS
32bit: PASS
64bit: PASS
128bit: PASS
256bit: PASS
-----mat mul num test-----
4bit: PASS
8bit: PASS
16bit: PASS
32bit: PASS
64bit: PASS
-----mat mul vec test-----
4bit: PASS
8bit: PASS
16bit: PASS
32bit: PASS
64bit: PASS
128bit: PASS
256bit: PASS
-----mat mul mat (includes mat transpositon) test-----
4bit: PASS
8bit: PASS
16bit: PASS
32bit: PASS
64bit: PASS
128bit: PASS
256bit: PASS
-----invertible and inverse test-----
4bit: PASS
8bit: PASS
16bit: PASS
32bit: PASS
64bit: PASS
128bit: PASS
256bit: PASS
-----invertible affine and affine transform test-----
4bit: PASS
8bit: PASS
16bit: PASS
32bit: PASS
64bit: PASS
128bit: PASS
-----affine mix test-----
4bit: PASS
8bit: PASS
16bit: PASS
32bit: PASS
64bit: PASS
128bit: PASS
-----affine concatenation test-----
8to32: ERROR
8to64: ERROR
8to128: ERROR
16to64: ERROR
32to128: ERROR
16to128: ERROR

ERROR!"%string.
