(** Generated by tools/gen_props.py from Main2.v: statements of the properties.
    Every theorem is closed by [exact]; its assumptions are printed beneath it. *)
From Coq Require Import Arith NArith ZArith List Bool Lia Setoid Morphisms.
From Verif Require Import Base Tables Model Spec LinAlg Mem Cons Elim Parity Trans Mul Rand GenPair Com Affine Bits Check Gauss Rel Main2.
Import ListNotations.

(** C12: Matrixcom writes the block diagonal matrix (little-endian). *)
Theorem C12_Matrixcom : forall c ms out,
  length ms * dim (com_src c) = dim (com_tgt c) ->
  Forall (shapeM (com_src c)) ms -> shapeM (com_tgt c) out ->
  exists r, Matrixcom LE c ms out = Ok r /\ wfM (com_tgt c) r /\
    forall i j, i < dim (com_tgt c) -> j < dim (com_tgt c) ->
      let s := dim (com_src c) in
      mbit (com_tgt c) r i j =
        if Nat.eqb (i / s) (j / s)
        then mbit (com_src c) (nth (i / s) ms []) (i mod s) (j mod s) else false.
Proof. exact C12_Matrixcom_main. Qed.
Print Assumptions C12_Matrixcom.

Example C12_ex : forall c,
  let ms := repeat (sample (com_src c)) (dim (com_tgt c) / dim (com_src c)) in
  length ms * dim (com_src c) = dim (com_tgt c) /\ Forall (shapeM (com_src c)) ms /\
  shapeM (com_tgt c) (zeros (com_tgt c)).
Proof. exact C12_ex_main. Qed.

(** C13: the concatenated affine transformation acts block by block (little-endian). *)
Theorem C13_affinecom : forall c fs xs out ox oy d,
  length fs * dim (com_src c) = dim (com_tgt c) -> length xs * dim (com_src c) = dim (com_tgt c) ->
  Forall (wfA (com_src c)) fs -> Forall (shapeV (com_src c)) xs ->
  shapeM (com_tgt c) (amat out) -> typedV (com_tgt c) (avec out) ->
  typedV (com_tgt c) ox -> typedV (com_tgt c) oy ->
  exists h x ys y,
    affinecom LE c fs out = Ok h /\ Vectorcom LE c xs ox = Ok x /\
    length ys = length xs /\
    (forall q, q < length xs -> affineU LE (com_src c) (nth q fs d) (nth q xs []) = Ok (nth q ys [])) /\
    affineU LE (com_tgt c) h x = Ok y /\ Vectorcom LE c ys oy = Ok y.
Proof. exact C13_affinecom_main. Qed.
Print Assumptions C13_affinecom.

Example C13_ex : forall c,
  let n := dim (com_tgt c) / dim (com_src c) in
  let fs := repeat (mkaff (sample (com_src c)) (samplev (com_src c))) n in
  let xs := repeat (samplev (com_src c)) n in
  length fs * dim (com_src c) = dim (com_tgt c) /\ length xs * dim (com_src c) = dim (com_tgt c) /\
  Forall (wfA (com_src c)) fs /\ Forall (shapeV (com_src c)) xs /\
  shapeM (com_tgt c) (zeros (com_tgt c)) /\ typedV (com_tgt c) (samplev (com_tgt c)).
Proof. exact C13_ex_main. Qed.

(** C14: the concatenation is invertible exactly when every block is. *)
Theorem C14_invertible_iff : forall c ms out,
  length ms * dim (com_src c) = dim (com_tgt c) ->
  Forall (wfM (com_src c)) ms -> shapeM (com_tgt c) out ->
  exists r, Matrixcom LE c ms out = Ok r /\
    (isinvert (com_tgt c) r = Ok 1%N <-> Forall (fun m => isinvert (com_src c) m = Ok 1%N) ms).
Proof. exact C14_invertible_iff_main. Qed.
Print Assumptions C14_invertible_iff.

(** C14: concatenating the inverses of invertible blocks gives the inverse. *)
Theorem C14_inverse : forall c ms vs out out2 out3,
  length ms * dim (com_src c) = dim (com_tgt c) ->
  Forall (wfM (com_src c)) ms -> shapeM (com_tgt c) out -> shapeM (com_tgt c) out2 ->
  shapeM (com_tgt c) out3 ->
  Forall (fun m => isinvert (com_src c) m = Ok 1%N) ms ->
  Forall2 (fun m v => exists o, shapeM (com_src c) o /\ invs (com_src c) m o = Ok v) ms vs ->
  exists r v, Matrixcom LE c ms out = Ok r /\ Matrixcom LE c vs out2 = Ok v /\
    invs (com_tgt c) r out3 = Ok v.
Proof. exact C14_inverse_main. Qed.
Print Assumptions C14_inverse.

Example C14_ex : forall c,
  let n := dim (com_tgt c) / dim (com_src c) in
  Forall (wfM (com_src c)) (repeat (sample (com_src c)) n) /\
  Forall (fun m => isinvert (com_src c) m = Ok 1%N) (repeat (sample (com_src c)) n) /\
  Forall (fun m => isinvert (com_src c) m = Ok 0%N) (repeat (rank1 (com_src c)) n).
Proof. exact C14_ex_main. Qed.

(** C15: readbit reads bit (i,j). *)
Theorem C15_readbit : forall w m i j, shapeM w m ->
  (0 <= i < Z.of_nat (dim w))%Z -> (0 <= j < Z.of_nat (dim w))%Z ->
  readbit w m i j = Ok (if mbit w m (Z.to_nat i) (Z.to_nat j) then 1 else 0)%N.
Proof. exact C15_readbit_main. Qed.
Print Assumptions C15_readbit.

(** C15: flipbit changes bit (i,j) and nothing else (also not the unused bits of 4-bit
    rows: all words but one are unchanged, and in that word one bit). *)
Theorem C15_flipbit : forall w m i j, shapeM w m ->
  (0 <= i < Z.of_nat (dim w))%Z -> (0 <= j < Z.of_nat (dim w))%Z ->
  exists r, flipbit w m i j = Ok r /\ shapeM w r /\
    (forall i' j', i' < dim w -> j' < dim w ->
       mbit w r i' j' = xorb (mbit w m i' j') (Nat.eqb i' (Z.to_nat i) && Nat.eqb j' (Z.to_nat j))) /\
    (forall i' k, (i' <> Z.to_nat i \/ k <> Z.to_nat j / wb w) -> word r i' k = word m i' k) /\
    (forall q, (N.of_nat (wb w) <= q)%N ->
       N.testbit (word r (Z.to_nat i) (Z.to_nat j / wb w)) q =
       N.testbit (word m (Z.to_nat i) (Z.to_nat j / wb w)) q).
Proof. exact C15_flipbit_main. Qed.
Print Assumptions C15_flipbit.

(** C15: setbit with 0 or 1 sets bit (i,j) and changes nothing else. *)
Theorem C15_setbit : forall w m i j (b : bool), shapeM w m ->
  (0 <= i < Z.of_nat (dim w))%Z -> (0 <= j < Z.of_nat (dim w))%Z ->
  exists r, setbit w m i j (if b then 1 else 0)%Z = Ok r /\ shapeM w r /\
    (forall i' j', i' < dim w -> j' < dim w ->
       mbit w r i' j' = if (Nat.eqb i' (Z.to_nat i) && Nat.eqb j' (Z.to_nat j))%bool
                        then b else mbit w m i' j') /\
    (forall i' k, (i' <> Z.to_nat i \/ k <> Z.to_nat j / wb w) -> word r i' k = word m i' k) /\
    (forall q, (N.of_nat (wb w) <= q)%N ->
       N.testbit (word r (Z.to_nat i) (Z.to_nat j / wb w)) q =
       N.testbit (word m (Z.to_nat i) (Z.to_nat j / wb w)) q).
Proof. exact C15_setbit_main. Qed.
Print Assumptions C15_setbit.

Example C15_ex : shapeM W8 (sample W8) /\ (0 <= 7 < Z.of_nat (dim W8))%Z /\
  readbit W8 (sample W8) 7 6 = Ok 0%N /\
  flipbit W8 (sample W8) 7 6 = Ok [[255]; [127]; [63]; [31]; [15]; [7]; [3]; [3]]%N.
Proof. exact C15_ex_main. Qed.

(** C16: undefined behaviour exactly outside the matrix. *)
Theorem C16_defined_iff : forall w m i j b, shapeM w m ->
  let inside := ((0 <= i < Z.of_nat (dim w)) /\ (0 <= j < Z.of_nat (dim w)))%Z in
  (readbit w m i j = UB <-> ~ inside) /\
  (flipbit w m i j = UB <-> ~ inside) /\
  (setbit w m i j b = UB <-> ~ inside).
Proof. exact C16_defined_iff_main. Qed.
Print Assumptions C16_defined_iff.

Example C16_ex : readbit W128 (sample W128) 3 (-1) = UB /\ readbit W128 (sample W128) 3 128 = UB /\
  readbit W128 (sample W128) 3 127 = Ok 1%N /\ flipbit W4 (sample W4) 4 0 = UB.
Proof. exact C16_ex_main. Qed.

(** C17: isequalM compares all bits. *)
Theorem C17_isequalM : forall w a b, shapeM w a -> shapeM w b ->
  exists r, isequalM w a b = Ok r /\ ((r = 1%N /\ a = b) \/ (r = 0%N /\ a <> b)).
Proof. exact C17_isequalM_main. Qed.
Print Assumptions C17_isequalM.

(** C17: for well-formed matrices this is equality of the bits. *)
Theorem C17_isequalM_bits : forall w a b, wfM w a -> wfM w b ->
  (isequalM w a b = Ok 1%N <->
   forall i j, i < dim w -> j < dim w -> mbit w a i j = mbit w b i j).
Proof. exact C17_isequalM_bits_main. Qed.
Print Assumptions C17_isequalM_bits.

Example C17_ex : isequalM W256 (sample W256) (sample W256) = Ok 1%N /\
  isequalM W256 (sample W256) (rank1 W256) = Ok 0%N.
Proof. exact C17_ex_main. Qed.

(** C18: isequalV compares all bits, except for 256-bit vectors. *)
Theorem C18_isequalV : forall w a b, w <> W256 -> shapeV w a -> shapeV w b ->
  exists r, isequalV w a b = Ok r /\ ((r = 1%N /\ a = b) \/ (r = 0%N /\ a <> b)).
Proof. exact C18_isequalV_main. Qed.
Print Assumptions C18_isequalV.

(** C18: isequalV256 compares the first two of the four elements only. *)
Theorem C18_isequalV256 : forall a b, shapeV W256 a -> shapeV W256 b ->
  exists r, isequalV W256 a b = Ok r /\
    ((r = 1%N /\ nth 0 a 0%N = nth 0 b 0%N /\ nth 1 a 0%N = nth 1 b 0%N) \/
     (r = 0%N /\ ~ (nth 0 a 0%N = nth 0 b 0%N /\ nth 1 a 0%N = nth 1 b 0%N))).
Proof. exact C18_isequalV256_main. Qed.
Print Assumptions C18_isequalV256.

(** C18 is false for 256 bits. *)
Theorem C18_isequalV256_refuted :
  exists a b, wfV W256 a /\ wfV W256 b /\ a <> b /\ isequalV W256 a b = Ok 1%N.
Proof. exact C18_isequalV256_refuted_main. Qed.
Print Assumptions C18_isequalV256_refuted.

Example C18_ex : shapeV W128 [1; 2]%N /\ isequalV W128 [1; 2]%N [1; 3]%N = Ok 0%N.
Proof. exact C18_ex_main. Qed.

(** C19: xorU is the parity of all bits, for both byte orders. *)
Theorem C19_xorU : forall e w l, typedV w l ->
  xorU e w l = Ok (if xsum (nw w) (fun k => xsum (cb w) (fun q => N.testbit (nth k l 0%N) (N.of_nat q)))
                   then 1 else 0)%N.
Proof. exact C19_xorU_main. Qed.
Print Assumptions C19_xorU.

Example C19_ex : typedV W128 [0x123456789abcdef0; 0xfedcba9876543211]%N /\
  xorU LE W128 [0x123456789abcdef0; 0xfedcba9876543211]%N = Ok 1%N /\
  xorU BE W128 [0x123456789abcdef0; 0xfedcba9876543211]%N = Ok 1%N.
Proof. exact C19_ex_main. Qed.

(** C20: HWU is the number of ones, for both byte orders; its parity is xorU. *)
Theorem C20_HWU : forall e w l, w <> W256 -> typedV w l ->
  exists h, HWU e w l = Ok h /\ h = vweight (cb w) l /\
    xorU e w l = Ok (if N.odd h then 1 else 0)%N.
Proof. exact C20_HWU_main. Qed.
Print Assumptions C20_HWU.

Example C20_ex : typedV W64 [0x123456789abcdef1]%N /\
  HWU LE W64 [0x123456789abcdef1]%N = Ok 33%N /\ vweight 64 [0x123456789abcdef1]%N = 33%N.
Proof. exact C20_ex_main. Qed.

(** C21: multiplication is associative. *)
Theorem C21_mul_assoc : forall e w a b c o1 o2 o3 o4,
  wfM w a -> wfM w b -> wfM w c -> shapeM w o1 -> shapeM w o2 -> shapeM w o3 -> shapeM w o4 ->
  exists r, (ab <- MatMulMat e w a b o1 ;; MatMulMat e w ab c o2) = Ok r /\
            (bc <- MatMulMat e w b c o3 ;; MatMulMat e w a bc o4) = Ok r.
Proof. exact C21_mul_assoc_main. Qed.
Print Assumptions C21_mul_assoc.

(** C21: multiplication distributes over MatAddMat on both sides. *)
Theorem C21_distributive : forall e w a b c o1 o2 o3 o4 o5,
  wfM w a -> wfM w b -> wfM w c ->
  shapeM w o1 -> shapeM w o2 -> shapeM w o3 -> shapeM w o4 -> shapeM w o5 ->
  (exists r, (s <- MatAddMat w b c o1 ;; MatMulMat e w a s o2) = Ok r /\
    (x <- MatMulMat e w a b o3 ;; y <- MatMulMat e w a c o4 ;; MatAddMat w x y o5) = Ok r) /\
  (exists r, (s <- MatAddMat w b c o1 ;; MatMulMat e w s a o2) = Ok r /\
    (x <- MatMulMat e w b a o3 ;; y <- MatMulMat e w c a o4 ;; MatAddMat w x y o5) = Ok r).
Proof. exact C21_distributive_main. Qed.
Print Assumptions C21_distributive.

(** C21: the identity matrix is neutral, the zero matrix absorbing. *)
Theorem C21_identity_zero : forall e w a o1 o2 o3 o4,
  wfM w a -> shapeM w o1 -> shapeM w o2 -> shapeM w o3 -> shapeM w o4 ->
  (id <- identityM w o1 ;; MatMulMat e w id a o2) = Ok a /\
  (id <- identityM w o1 ;; MatMulMat e w a id o2) = Ok a /\
  (exists z, initM w o3 = Ok z /\ MatMulMat e w z a o4 = Ok z /\ MatMulMat e w a z o4 = Ok z).
Proof. exact C21_identity_zero_main. Qed.
Print Assumptions C21_identity_zero.

(** C21: products act one after the other, and MatMulVec is additive. *)
Theorem C21_vectors : forall e w a b x y o1 o2 o3 o4 o5,
  wfM w a -> wfM w b -> wfV w x -> wfV w y ->
  shapeM w o1 -> shapeV w o2 -> shapeV w o3 -> shapeV w o4 -> shapeV w o5 ->
  (exists r, (ab <- MatMulMat e w a b o1 ;; MatMulVec e w ab x o2) = Ok r /\
             (bx <- MatMulVec e w b x o3 ;; MatMulVec e w a bx o4) = Ok r) /\
  (exists r, (s <- VecAddVec w x y o2 ;; MatMulVec e w a s o3) = Ok r /\
     (u <- MatMulVec e w a x o2 ;; v <- MatMulVec e w a y o4 ;; VecAddVec w u v o5) = Ok r).
Proof. exact C21_vectors_main. Qed.
Print Assumptions C21_vectors.

Example C21_ex : forall w, wfM w (sample w) /\ wfM w (rank1 w) /\ wfV w (samplev w) /\
  shapeM w (zeros w) /\ shapeV w (zerov w).
Proof. exact C21_ex_main. Qed.

(** C22: (A*B)^T = B^T * A^T. *)
Theorem C22_trans_mul : forall e w a b o1 o2 o3 o4 o5,
  wfM w a -> wfM w b -> shapeM w o1 -> shapeM w o2 -> shapeM w o3 -> shapeM w o4 -> shapeM w o5 ->
  exists r, (ab <- MatMulMat e w a b o1 ;; Mattrans w ab o2) = Ok r /\
    (bt <- Mattrans w b o3 ;; at_ <- Mattrans w a o4 ;; MatMulMat e w bt at_ o5) = Ok r.
Proof. exact C22_trans_mul_main. Qed.
Print Assumptions C22_trans_mul.

(** C23: a product is invertible exactly when both factors are. *)
Theorem C23_isinvert_mul : forall e w a b o, wfM w a -> wfM w b -> shapeM w o ->
  exists ra rb rab, isinvert w a = Ok ra /\ isinvert w b = Ok rb /\
    (ab <- MatMulMat e w a b o ;; isinvert w ab) = Ok rab /\ rab = N.min ra rb.
Proof. exact C23_isinvert_mul_main. Qed.
Print Assumptions C23_isinvert_mul.

(** C23: transposition does not change invertibility. *)
Theorem C23_isinvert_trans : forall w a o, wfM w a -> shapeM w o ->
  exists r, isinvert w a = Ok r /\ (t <- Mattrans w a o ;; isinvert w t) = Ok r.
Proof. exact C23_isinvert_trans_main. Qed.
Print Assumptions C23_isinvert_trans.

(** C23: inverses of products, of inverses and of transposed matrices. *)
Theorem C23_invs_laws : forall e w a b o1 o2 o3 o4 o5,
  wfM w a -> wfM w b -> shapeM w o1 -> shapeM w o2 -> shapeM w o3 -> shapeM w o4 -> shapeM w o5 ->
  isinvert w a = Ok 1%N -> isinvert w b = Ok 1%N ->
  (exists r, (ab <- MatMulMat e w a b o1 ;; invs w ab o2) = Ok r /\
     (bi <- invs w b o3 ;; ai <- invs w a o4 ;; MatMulMat e w bi ai o5) = Ok r) /\
  (ai <- invs w a o1 ;; invs w ai o2) = Ok a /\
  (exists r, (t <- Mattrans w a o1 ;; invs w t o2) = Ok r /\
             (ai <- invs w a o3 ;; Mattrans w ai o4) = Ok r).
Proof. exact C23_invs_laws_main. Qed.
Print Assumptions C23_invs_laws.

Example C23_ex : forall w, wfM w (sample w) /\ isinvert w (sample w) = Ok 1%N /\ shapeM w (zeros w).
Proof. exact C23_ex_main. Qed.

(** C24: 4-bit matrix functions write entries below 16. *)
Theorem C24_matrices : forall e m a b o s, shapeM W4 m ->
  wfM W4 a -> wfM W4 b -> shapeM W4 o -> typedM W4 m ->
  wp (initM W4 m) (wfM W4) /\ wp (identityM W4 m) (wfM W4) /\ wp (copyM W4 a m) (wfM W4) /\
  wp (randM e W4 m s) (fun r => wfM W4 (fst r)) /\
  wp (invs W4 a m) (wfM W4) /\ wp (MatAddMat W4 a b m) (wfM W4) /\
  wp (Mattrans W4 a m) (wfM W4) /\ wp (MatMulMat e W4 a b m) (wfM W4) /\
  wp (genMatpair e W4 m o s) (fun r => wfM W4 (fst (fst r)) /\ wfM W4 (snd (fst r))) /\
  (forall i j c, (0 <= i < 4)%Z -> (0 <= j < 4)%Z ->
     wp (flipbit W4 a i j) (wfM W4) /\ wp (setbit W4 a i j c) (wfM W4)).
Proof. exact C24_matrices_main. Qed.
Print Assumptions C24_matrices.

(** C24: 4-bit vector and affine functions write entries below 16. *)
Theorem C24_vectors : forall e v a x y f g fo go s n,
  typedV W4 v -> wfM W4 a -> wfV W4 x -> wfV W4 y -> wfA W4 f -> wfA W4 g ->
  shapeM W4 (amat fo) -> typedV W4 (avec fo) -> shapeA W4 go ->
  wp (initV W4 v) (wfV W4) /\ wp (randV e W4 v s) (fun r => wfV W4 (fst r)) /\
  wp (VecAddVec W4 x y v) (wfV W4) /\ wp (MatMulVec e W4 a x v) (wfV W4) /\
  wp (MatMulNum e W4 a n) (fun r => (r < 16)%N) /\ wp (affineU e W4 f x) (wfV W4) /\
  wp (affinemix e W4 f g go) (wfA W4) /\
  wp (genaffinepair e W4 fo go s) (fun r => wfA W4 (fst (fst r)) /\ wfA W4 (snd (fst r))).
Proof. exact C24_vectors_main. Qed.
Print Assumptions C24_vectors.

Example C24_ex : wfM W4 (sample W4) /\ wfM W4 (rank1 W4) /\ wfV W4 (samplev W4) /\
  wfA W4 (mkaff (sample W4) (samplev W4)) /\ typedM W4 [[255]; [17]; [0]; [128]]%N.
Proof. exact C24_ex_main. Qed.

(** C25: the unused high nibble changes results: each pair differs in unused bits only. *)
Theorem C25_high_nibble_refuted : exists a b c d o,
  typedM W4 a /\ typedM W4 b /\ typedM W4 c /\ typedM W4 d /\ shapeM W4 o /\
  feq 4 (mbit W4 a) (mbit W4 b) /\ feq 4 (mbit W4 c) (mbit W4 d) /\
  Mattrans W4 a o <> Mattrans W4 b o /\
  MatMulMat LE W4 a a o <> MatMulMat LE W4 a b o /\
  isequalM W4 a b = Ok 0%N /\
  isinvert W4 c = Ok 1%N /\ isinvert W4 d = Ok 0%N.
Proof. exact C25_high_nibble_refuted_main. Qed.
Print Assumptions C25_high_nibble_refuted.

(** C25: inverse, matrix-vector product and left factor of a product ignore it. *)
Theorem C25_ignored : forall e a b x y v m o u, typedM W4 a -> typedM W4 b ->
  feq 4 (mbit W4 a) (mbit W4 b) -> shapeV W4 x -> shapeV W4 y -> veq 4 (vbit W4 x) (vbit W4 y) ->
  wfM W4 m -> shapeM W4 o -> shapeV W4 v ->
  invs W4 a u = invs W4 b u /\
  MatMulVec e W4 a x v = MatMulVec e W4 b y v /\
  MatMulMat e W4 a m o = MatMulMat e W4 b m o.
Proof. exact C25_ignored_main. Qed.
Print Assumptions C25_ignored.

Example C25_ex : let a := [[17]; [34]; [68]; [136]]%N in let b := [[1]; [2]; [4]; [8]]%N in
  typedM W4 a /\ typedM W4 b /\ a <> b /\ feq 4 (mbit W4 a) (mbit W4 b).
Proof. exact C25_ex_main. Qed.
