(** Generated by tools/gen_props.py from Main21.v: statements of the properties.
    Every theorem is closed by [exact]; its assumptions are printed beneath it. *)
From Coq Require Import Arith NArith ZArith List Bool Lia.
From Verif Require Import Base Spec ModelSM4 SpecSM4 SM4 WBSM4 ModelM4ri SpecM4ri M4ri1 ModelM4ri2 SpecM4ri2 ModelGf2 SpecGf2 Gf2a Gf2b Gf2c Gf2d ModelSM4M WBSM4M WBSM4M2 Main21.
Import ListNotations.

(** C99: generating tables is defined for every key, every content of the global arrays before and
    every random number generator, and encryption with the tables is SM4 *)
Theorem C99_wbsm4_m4ri : forall fuel e key g c s, env_ok e -> bytes 16 key ->
  mglob_dims g -> dims3 32 4 256 (hS g) -> mctx_dims c ->
  exists o, m_gen_tables fuel e key g c s = Ok o /\
    (fair fuel 8 (erand e) -> fair fuel 32 (erand e) -> s mod 3 = 0 -> o <> None) /\
    forall g' c' s', o = Some (g', c', s') -> mglob_dims g' /\ dims3 32 4 256 (hS g') /\ mctx_dims c' /\
      forall IN OUT, bytes 16 IN -> length OUT = 16 -> m_wb_enc e IN OUT c' = Ok (SM4_encrypt key IN).
Proof. exact C99_wbsm4_m4ri_main. Qed.
Print Assumptions C99_wbsm4_m4ri.

(** a random number generator with fuel 0, and the arrays before the first call *)
Example C99_ex : env_ok fair_env /\ fair 0 8 (erand fair_env) /\ fair 0 32 (erand fair_env) /\
  bytes 16 (map N.of_nat (seq 0 16)) /\ mglob_dims mg0 /\ dims3 32 4 256 (hS mg0) /\ mctx_dims mc0.
Proof. exact C99_ex_main. Qed.
