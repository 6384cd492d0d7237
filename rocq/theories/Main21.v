(** C99: the white-box SM4 example over M4RI. *)
From Coq Require Import Arith NArith ZArith List Bool Lia.
From Verif Require Import Base Spec ModelSM4 SpecSM4 SM4 WBSM4 ModelM4ri SpecM4ri M4ri1 ModelM4ri2 SpecM4ri2 ModelGf2 SpecGf2 Gf2a Gf2b Gf2c Gf2d ModelSM4M WBSM4M WBSM4M2.
Import ListNotations.

(** C99: generating tables is defined for every key, every content of the global arrays before and
    every random number generator, and encryption with the tables is SM4 *)
Lemma C99_wbsm4_m4ri_main : forall fuel e key g c s, env_ok e -> bytes 16 key ->
  mglob_dims g -> dims3 32 4 256 (hS g) -> mctx_dims c ->
  exists o, m_gen_tables fuel e key g c s = Ok o /\
    (fair fuel 8 (erand e) -> fair fuel 32 (erand e) -> s mod 3 = 0 -> o <> None) /\
    forall g' c' s', o = Some (g', c', s') -> mglob_dims g' /\ dims3 32 4 256 (hS g') /\ mctx_dims c' /\
      forall IN OUT, bytes 16 IN -> length OUT = 16 -> m_wb_enc e IN OUT c' = Ok (SM4_encrypt key IN).
Proof.
  intros fuel e key g c s HE HK HG DS HC.
  destruct (wp_exists _ _ _ (m_wb_correct fuel e key g c s HE HK HG DS HC)) as (o & E & H). exists o. split; [exact E|]. split.
  - intros F8 F32 Hs. pose proof (m_gen_tables_some fuel e key g c s HE HK HG DS HC (conj F8 F32) Hs) as W. rewrite E in W.
    destruct W as (g' & c' & s' & -> & _). discriminate.
  - intros g' c' s' ->. exact H.
Qed.
Definition mg0 : mglob :=
  mkmg (repeat (repeat nafft 2) 36) (repeat (repeat (repeat nafft 2) 5) 36) (repeat (repeat nafft 2) 36)
    (repeat (repeat (repeat 0%N 256) 4) 32).
Definition mc0 : mctx :=
  mkmx (repeat (repeat nafft 3) 32) (repeat nafft 32) (repeat nafft 32) (repeat nafft 4) (repeat nafft 4)
    (repeat (repeat (repeat 0%N 256) 4) 32).
Lemma dims2_rep : forall A (x : A) n m, dims2 n m (repeat (repeat x m) n).
Proof. intros. split; [apply repeat_length|]. intros. rewrite nth_repeat_in by auto. apply repeat_length. Qed.
Lemma dims3_rep : forall A (x : A) n m l, dims3 n m l (repeat (repeat (repeat x l) m) n).
Proof. intros. split; [apply repeat_length|]. intros. rewrite nth_repeat_in by auto. apply dims2_rep. Qed.
(** a random number generator with fuel 0, and the arrays before the first call *)
Example C99_ex_main : env_ok fair_env /\ fair 0 8 (erand fair_env) /\ fair 0 32 (erand fair_env) /\
  bytes 16 (map N.of_nat (seq 0 16)) /\ mglob_dims mg0 /\ dims3 32 4 256 (hS mg0) /\ mctx_dims mc0.
Proof.
  split; [apply fair_env_ok|]. split; [exact fair8|]. split; [exact fair32|].
  split; [split; [reflexivity|repeat constructor]|].
  split; [split; [apply dims2_rep|split; [apply dims3_rep|apply dims2_rep]]|]. split; [apply dims3_rep|].
  split; [apply dims2_rep|]. split; [reflexivity|]. split; [reflexivity|]. split; [reflexivity|]. split; [reflexivity|]. apply dims3_rep.
Qed.
