(** Generated by tools/gen_props.py from Main6.v: statements of the properties.
    Every theorem is closed by [exact]; its assumptions are printed beneath it. *)
From Coq Require Import Arith NArith List Bool Lia.
From Verif Require Import Base Tables Model Spec LinAlg Mem Cons Rand Qpr Check ModelGen SpecGen Gen Main6.
Import ListNotations.

(** C46: calls number j and k of randM that read the same time, less than 2^32 calls apart,
    leave the generator at different positions of its stream. *)
Theorem C46_same_second : forall e w t0 s j k mj sj mk sk, typedM w t0 -> (w_seed s < 2 ^ 32)%N ->
  j < k -> (N.of_nat k - N.of_nat j < 2 ^ 32)%N ->
  u32 (w_clk s (w_tick s + j)) = u32 (w_clk s (w_tick s + k)) ->
  nth_draw e w j t0 s = Ok (mj, sj) -> nth_draw e w k t0 s = Ok (mk, sk) ->
  w_idx sj <> w_idx sk.
Proof. exact C46_same_second_main. Qed.
Print Assumptions C46_same_second.

Example C46_ex : typedM W4 (zeros W4) /\
  (exists x y, nth_draw LE W4 0 (zeros W4) (mkworld 5 0 0 (fun _ => 7%N) 0) = Ok (x, y) /\ w_idx y = 1729565361%N) /\
  (exists x y, nth_draw LE W4 1 (zeros W4) (mkworld 5 0 0 (fun _ => 7%N) 0) = Ok (x, y) /\ w_idx y <> 1729565361%N).
Proof. exact C46_ex_main. Qed.
