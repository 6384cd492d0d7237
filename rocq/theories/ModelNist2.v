(** Model of the statistics of further tests in test/randomness: random excursions, templates,
    serial, Maurer, frequency within a block.  Conventions as in ModelNist.v; [UB] also stands for
    a loop that uses up its fuel, so a result [Ok] means that the loops end. *)
From Coq Require Import Arith NArith ZArith QArith List Bool.
From Verif Require Import Base ModelRank ModelBM ModelNist.
Import ListNotations.
Local Open Scope nat_scope.

(** ** sp800_22_random_excursion_test.py, sp800_22_random_excursion_variant_test.py *)

(** lines 39-45 (variant: lines 35-41): the partial sums with a 0 on each end *)
Definition sprime (bits : list N) : list Z :=
  let s := snd (fold_left (fun st e => let '(pos, s) := st in
    let pos := (pos + e)%Z in (pos, s ++ [pos])) (plusminus bits) (0%Z, [])) in
  ([0%Z] ++ s ++ [0%Z])%list.
(** the inner loop, lines 54-56 *)
Fixpoint cycle_loop (fuel : nat) (sp : list Z) (pos : nat) (cycle : list Z) : res (list Z * nat) :=
  match fuel with
  | O => UB
  | S f => x <- aget sp pos ;;
           if (x =? 0)%Z then Ok (cycle, pos) else cycle_loop f sp (pos + 1) (cycle ++ [x])
  end.
(** the outer loop, lines 51-59 *)
Fixpoint cycles_loop (fuel : nat) (sp : list Z) (pos : nat) (cycles : list (list Z)) : res (list (list Z)) :=
  match fuel with
  | O => UB
  | S f => if Nat.ltb pos (length sp)
           then ' (cycle, pos') <- cycle_loop (length sp) sp pos [0%Z] ;;
                cycles_loop f sp (pos' + 1) (cycles ++ [cycle ++ [0%Z]])
           else Ok cycles
  end.
(** lines 49-59 *)
Definition cycles (bits : list N) : res (list (list Z)) :=
  let sp := sprime bits in cycles_loop (length sp + 1) sp 1 [].
(** lines 73-87: the number of cycles in which x occurs k times (k = 5: at least 5 times) *)
Definition vxk (cs : list (list Z)) (x : Z) (k : nat) : nat :=
  fold_left (fun cyclecount cycle =>
    let oc := fold_left (fun oc pos => if (pos =? x)%Z then oc + 1 else oc) cycle 0 in
    if Nat.ltb k 5 then if Nat.eqb oc k then cyclecount + 1 else cyclecount
    else if Nat.eqb k 5 then if Nat.leb 5 oc then cyclecount + 1 else cyclecount else cyclecount) cs 0.
(** lines 90-96, the four rows in use (abs(x) = 1..4) *)
Definition pixk : list (list Q) :=
  [[5 # 10; 25 # 100; 125 # 1000; 625 # 10000; 312 # 10000; 312 # 10000];
   [75 # 100; 625 # 10000; 469 # 10000; 352 # 10000; 264 # 10000; 791 # 10000];
   [8333 # 10000; 278 # 10000; 231 # 10000; 193 # 10000; 161 # 10000; 804 # 10000];
   [875 # 1000; 156 # 10000; 137 # 10000; 12 # 1000; 105 # 10000; 733 # 10000]].
(** variant, lines 44-47 *)
Definition variant_J (bits : list N) : nat :=
  fold_left (fun J value => if (value =? 0)%Z then J + 1 else J) (tl (sprime bits)) 0.
(** variant, lines 50-53; the index may be negative *)
Definition variant_count (bits : list N) : res (list nat) :=
  let sp := sprime bits in
  for_up 0 (length sp) (fun i count =>
    value <- aget sp i ;;
    if (Z.abs value <? 10)%Z then c <- pget count value ;; pset count value (c + 1) else Ok count) (repeat 0 19).

(** ** sp800_22_non_overlapping_template_matching_test.py *)

(** lines 33-72 (transcribed by script) *)
Definition templates : list (list (list N)) :=
 [  [[0;1]; [1;0]];
  [[0;0;1]; [0;1;1]; [1;0;0]; [1;1;0]];
  [[0;0;0;1]; [0;0;1;1]; [0;1;1;1]; [1;0;0;0]; [1;1;0;0]; [1;1;1;0]];
  [[0;0;0;0;1]; [0;0;0;1;1]; [0;0;1;0;1]; [0;1;0;1;1]; [0;0;1;1;1]; [0;1;1;1;1];
   [1;1;1;0;0]; [1;1;0;1;0]; [1;0;1;0;0]; [1;1;0;0;0]; [1;0;0;0;0]; [1;1;1;1;0]];
  [[0;0;0;0;0;1]; [0;0;0;0;1;1]; [0;0;0;1;0;1]; [0;0;0;1;1;1]; [0;0;1;0;1;1]; [0;0;1;1;0;1];
   [0;0;1;1;1;1]; [0;1;0;0;1;1]; [0;1;0;1;1;1]; [0;1;1;1;1;1]; [1;0;0;0;0;0]; [1;0;1;0;0;0];
   [1;0;1;1;0;0]; [1;1;0;0;0;0]; [1;1;0;0;1;0]; [1;1;0;1;0;0]; [1;1;1;0;0;0]; [1;1;1;0;1;0];
   [1;1;1;1;0;0]; [1;1;1;1;1;0]];
  [[0;0;0;0;0;0;1]; [0;0;0;0;0;1;1]; [0;0;0;0;1;0;1]; [0;0;0;0;1;1;1]; [0;0;0;1;0;0;1]; [0;0;0;1;0;1;1];
   [0;0;0;1;1;0;1]; [0;0;0;1;1;1;1]; [0;0;1;0;0;1;1]; [0;0;1;0;1;0;1]; [0;0;1;0;1;1;1]; [0;0;1;1;0;1;1];
   [0;0;1;1;1;0;1]; [0;0;1;1;1;1;1]; [0;1;0;0;0;1;1]; [0;1;0;0;1;1;1]; [0;1;0;1;0;1;1]; [0;1;0;1;1;1;1];
   [0;1;1;0;1;1;1]; [0;1;1;1;1;1;1]; [1;0;0;0;0;0;0]; [1;0;0;1;0;0;0]; [1;0;1;0;0;0;0]; [1;0;1;0;1;0;0];
   [1;0;1;1;0;0;0]; [1;0;1;1;1;0;0]; [1;1;0;0;0;0;0]; [1;1;0;0;0;1;0]; [1;1;0;0;1;0;0]; [1;1;0;1;0;0;0];
   [1;1;0;1;0;1;0]; [1;1;0;1;1;0;0]; [1;1;1;0;0;0;0]; [1;1;1;0;0;1;0]; [1;1;1;0;1;0;0]; [1;1;1;0;1;1;0];
   [1;1;1;1;0;0;0]; [1;1;1;1;0;1;0]; [1;1;1;1;1;0;0]; [1;1;1;1;1;1;0]];
  [[0;0;0;0;0;0;0;1]; [0;0;0;0;0;0;1;1]; [0;0;0;0;0;1;0;1]; [0;0;0;0;0;1;1;1]; [0;0;0;0;1;0;0;1]; [0;0;0;0;1;0;1;1];
   [0;0;0;0;1;1;0;1]; [0;0;0;0;1;1;1;1]; [0;0;0;1;0;0;1;1]; [0;0;0;1;0;1;0;1]; [0;0;0;1;0;1;1;1]; [0;0;0;1;1;0;0;1];
   [0;0;0;1;1;0;1;1]; [0;0;0;1;1;1;0;1]; [0;0;0;1;1;1;1;1]; [0;0;1;0;0;0;1;1]; [0;0;1;0;0;1;0;1]; [0;0;1;0;0;1;1;1];
   [0;0;1;0;1;0;1;1]; [0;0;1;0;1;1;0;1]; [0;0;1;0;1;1;1;1]; [0;0;1;1;0;1;0;1]; [0;0;1;1;0;1;1;1]; [0;0;1;1;1;0;1;1];
   [0;0;1;1;1;1;0;1]; [0;0;1;1;1;1;1;1]; [0;1;0;0;0;0;1;1]; [0;1;0;0;0;1;1;1]; [0;1;0;0;1;0;1;1]; [0;1;0;0;1;1;1;1];
   [0;1;0;1;0;0;1;1]; [0;1;0;1;0;1;1;1]; [0;1;0;1;1;0;1;1]; [0;1;0;1;1;1;1;1]; [0;1;1;0;0;1;1;1]; [0;1;1;0;1;1;1;1];
   [0;1;1;1;1;1;1;1]; [1;0;0;0;0;0;0;0]; [1;0;0;1;0;0;0;0]; [1;0;0;1;1;0;0;0]; [1;0;1;0;0;0;0;0]; [1;0;1;0;0;1;0;0];
   [1;0;1;0;1;0;0;0]; [1;0;1;0;1;1;0;0]; [1;0;1;1;0;0;0;0]; [1;0;1;1;0;1;0;0]; [1;0;1;1;1;0;0;0]; [1;0;1;1;1;1;0;0];
   [1;1;0;0;0;0;0;0]; [1;1;0;0;0;0;1;0]; [1;1;0;0;0;1;0;0]; [1;1;0;0;1;0;0;0]; [1;1;0;0;1;0;1;0]; [1;1;0;1;0;0;0;0];
   [1;1;0;1;0;0;1;0]; [1;1;0;1;0;1;0;0]; [1;1;0;1;1;0;0;0]; [1;1;0;1;1;0;1;0]; [1;1;0;1;1;1;0;0]; [1;1;1;0;0;0;0;0];
   [1;1;1;0;0;0;1;0]; [1;1;1;0;0;1;0;0]; [1;1;1;0;0;1;1;0]; [1;1;1;0;1;0;0;0]; [1;1;1;0;1;0;1;0]; [1;1;1;0;1;1;0;0];
   [1;1;1;1;0;0;0;0]; [1;1;1;1;0;0;1;0]; [1;1;1;1;0;1;0;0]; [1;1;1;1;0;1;1;0]; [1;1;1;1;1;0;0;0]; [1;1;1;1;1;0;1;0];
   [1;1;1;1;1;1;0;0]; [1;1;1;1;1;1;1;0]]]%N.
Definition eqlist (a b : list N) : bool := if list_eq_dec N.eq_dec a b then true else false.
(** lines 93-100, the loop over the positions of a block; M-m is negative if the block is
    shorter than the template *)
Fixpoint scan (fuel : nat) (B block : list N) (M position count : nat) : res nat :=
  let m := length B in
  match fuel with
  | O => UB
  | S f => if (Z.of_nat position <? Z.of_nat M - Z.of_nat m)%Z
           then if eqlist (pyslice block position (position + m)) B
                then scan f B block M (position + m) (count + 1)
                else scan f B block M (position + 1) count
           else Ok count
  end.
(** lines 83-101: the list W for the template B (8 blocks) *)
Definition template_W (B bits : list N) : res (list nat) :=
  let M := length bits / 8 in
  for_up 0 8 (fun i W =>
    c <- scan (M + 1) B (pyslice bits (i * M) ((i + 1) * M)) M 0 0 ;; Ok (W ++ [c])) [].
(** lines 103-108: chisq from M, m and W; sigma may be zero only for M = 0 *)
Definition template_chisq (M m : nat) (W : list nat) : Q :=
  let q n := inject_Z (Z.of_nat n) in
  let P := inject_Z (2 ^ Z.of_nat m) in
  let mu := ((q M - q m + 1) / P)%Q in
  let sigma := (q M * (1 / P - (2 * q m - 1) / (P * P)))%Q in
  fold_left (fun chisq w => (chisq + (q w - mu) * (q w - mu) / (sigma * sigma))%Q) W 0%Q.

(** ** sp800_22_overlapping_template_matching_test.py *)

(** lines 60-71, for a template of m ones, blocks of M bits and K+1 classes: the table v *)
Definition overlap_count (m M : nat) (block : list N) : nat :=
  fold_left (fun count position => if eqlist (pyslice block position (position + m)) (repeat 1%N m) then count + 1 else count)
    (seq 0 (M - m)) 0.

(** ** sp800_22_serial_test.py *)

(** int2patt, lines 29-33 *)
Definition int2patt (n m : nat) : list N := map (fun i => N.land (N.shiftr (N.of_nat n) (N.of_nat i)) 1) (seq 0 m).
(** countpattern, lines 35-44 *)
Definition countpattern (patt bits : list N) (n : nat) : res nat :=
  for_up 0 n (fun i thecount =>
    mt <- for_up 0 (length patt) (fun j mt =>
            x <- aget patt j ;; y <- aget bits (i + j) ;;
            Ok (if N.eqb x y then mt else false)) true ;;
    Ok (if (mt : bool) then thecount + 1 else thecount)) 0.
(** psi_sq_mv1, lines 46-58 *)
Definition psi_sq_mv1 (m n : nat) (padded_bits : list N) : res Q :=
  counts <- for_up 0 (2 ^ m) (fun i counts =>
              count <- countpattern (int2patt i m) padded_bits n ;; Ok (counts ++ [count])) (repeat 0 (2 ^ m)) ;;
  let psi := fold_left (fun s c => s + c * c) counts 0 in
  if Nat.eqb n 0 then UB
  else Ok (inject_Z (Z.of_nat psi) * inject_Z (Z.of_nat (2 ^ m)) / inject_Z (Z.of_nat n) - inject_Z (Z.of_nat n))%Q.
(** serial_test, lines 60-81, for a pattern length m: delta1 and delta2 *)
Definition serial_deltas (bits : list N) (m : nat) : res (Q * Q) :=
  let n := length bits in
  let padded := bits ++ pyslice bits 0 (m - 1) in
  a <- psi_sq_mv1 m n padded ;;
  b <- psi_sq_mv1 (m - 1) n padded ;;
  c <- psi_sq_mv1 (m - 2) n padded ;;
  Ok (a - b, a - 2 * b + c)%Q.

(** ** sp800_22_maurers_universal_test.py *)

(** pattern2int, lines 27-32 *)
Definition pattern2int (pattern : list N) : N := fold_left (fun n bit => (N.shiftl n 1 + bit)%N) pattern 0%N.
(** lines 41-51: the block length for n bits; None is the early return on line 48 *)
Definition maurer_L (n : N) : option nat :=
  if (n <? 387840)%N then None
  else Some (fold_left (fun L threshold => if (threshold <=? n)%N then L + 1 else L)
    [904960; 2068480; 4654080; 10342400; 22753280; 49643520; 107560960; 231669760; 496435200; 1059061760]%N 6).
(** lines 61-76 for block length L, Q initial blocks and nblocks blocks: the list of the values dist
    (whose logarithms are summed) *)
Definition maurer_dists (L Q nblocks : nat) (bits : list N) : res (list nat) :=
  T <- for_up 0 Q (fun i T =>
         aset T (N.to_nat (pattern2int (pyslice bits (i * L) ((i + 1) * L)))) (i + 1)) (repeat 0 (2 ^ L)) ;;
  ' (T, ds) <- for_up Q nblocks (fun i st =>
         let '(T, ds) := st in
         let j := N.to_nat (pattern2int (pyslice bits (i * L) ((i + 1) * L))) in
         t <- aget T j ;;
         T' <- aset T j (i + 1) ;;
         Ok (T', ds ++ [i + 1 - t])) (T, []) ;;
  Ok ds.

(** ** sp800_22_frequency_within_block_test.py *)

(** lines 45-50: M and N *)
Definition freq_params (n : nat) : nat * nat :=
  let N := n / 20 in if Nat.ltb 99 N then (n / 99, 99) else (20, N).
(** lines 64-72 *)
Definition freq_chisq (bits : list N) : Q :=
  let '(M, N) := freq_params (length bits) in
  fold_left (fun chisq i =>
    let '(_, ones) := count_ones_zeroes (pyslice bits (i * M) ((i + 1) * M)) in
    let prop := (inject_Z (Z.of_nat ones) / inject_Z (Z.of_nat M))%Q in
    (chisq + 4 * inject_Z (Z.of_nat M) * ((prop - (1 # 2)) * (prop - (1 # 2))))%Q) (seq 0 N) 0%Q.
