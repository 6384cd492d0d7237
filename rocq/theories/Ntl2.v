(** Numbers, block diagonal matrices and affine maps over NTL: lemmas for ModelNtl.v *)
From Coq Require Import Arith NArith ZArith List Bool Lia ZifyNat Setoid Morphisms.
From Verif Require Import Base Spec LinAlg SpecGf2 Gf2a Gf2b ModelNtl SpecNtl Ntl1.
From Verif Require ModelSM4 WBSM4M M4ri1.
Import ListNotations.
Local Open Scope nat_scope.
#[local] Ltac Zify.zify_post_hook ::= Z.to_euclidean_division_equations.

(** ** Filling *)

Lemma gwp_fill_row : forall R C M i c0 c1 c (g : nat -> bool) (f : nat -> gmat -> res gmat) (Q : gmat -> Prop), gok R C M -> i < R -> c0 + c1 <= C ->
  c = c1 ->
  (forall j M' (Q' : gmat -> Prop), j < c1 -> gok R C M' -> (forall M'', gok R C M'' ->
     (forall a b, gat M'' a b = if Nat.eqb a i && Nat.eqb b (c0 + j) then g j else gat M' a b) -> Q' M'') -> wp (f j M') Q') ->
  (forall M', gok R C M' -> (forall a b, gat M' a b =
     if Nat.eqb a i && (Nat.leb c0 b && Nat.ltb b (c0 + c1)) then g (b - c0) else gat M a b) -> Q M') ->
  wp (for_up 0 c f M) Q.
Proof.
  intros R C M i c0 c1 c g f Q HM Hi Hc -> Hf HQ.
  apply wp_for_up with (I := fun j M' => gok R C M' /\ forall a b, gat M' a b =
     if Nat.eqb a i && (Nat.leb c0 b && Nat.ltb b (c0 + j)) then g (b - c0) else gat M a b).
  - lia.
  - split; [exact HM|]. intros a b. destruct (Nat.leb_spec c0 b), (Nat.ltb_spec b (c0 + 0)); try lia; rewrite ?andb_false_r; reflexivity.
  - intros j M' _ Hj [HM' HE]. apply (Hf j M' _ Hj HM'). intros M'' HM'' HE''. split; [exact HM''|].
    intros a b. rewrite HE'', HE. destruct (Nat.eqb_spec a i); [|reflexivity]. cbn [andb].
    destruct (Nat.eqb_spec b (c0 + j)), (Nat.leb_spec c0 b), (Nat.ltb_spec b (c0 + j)), (Nat.ltb_spec b (c0 + S j)); try lia; cbn [andb]; try reflexivity.
    f_equal. lia.
  - intros M' [H1 H2]. apply HQ; assumption.
Qed.
Lemma gwp_fill_rows : forall R C M r0 r1 r (h : nat -> nat -> bool) (f : nat -> gmat -> res gmat) (Q : gmat -> Prop), gok R C M -> r0 + r1 <= R ->
  r = r1 ->
  (forall i M' (Q' : gmat -> Prop), i < r1 -> gok R C M' -> (forall M'', gok R C M'' ->
     (forall a b, b < C -> gat M'' a b = if Nat.eqb a (r0 + i) then h i b else gat M' a b) -> Q' M'') -> wp (f i M') Q') ->
  (forall M', gok R C M' -> (forall a b, b < C -> gat M' a b =
     if Nat.leb r0 a && Nat.ltb a (r0 + r1) then h (a - r0) b else gat M a b) -> Q M') ->
  wp (for_up 0 r f M) Q.
Proof.
  intros R C M r0 r1 r h f Q HM Hr -> Hf HQ.
  apply wp_for_up with (I := fun i M' => gok R C M' /\ forall a b, b < C -> gat M' a b =
     if Nat.leb r0 a && Nat.ltb a (r0 + i) then h (a - r0) b else gat M a b).
  - lia.
  - split; [exact HM|]. intros a b _. destruct (Nat.leb_spec r0 a), (Nat.ltb_spec a (r0 + 0)); try lia; reflexivity.
  - intros i M' _ Hi [HM' HE]. apply (Hf i M' _ Hi HM'). intros M'' HM'' HE''. split; [exact HM''|].
    intros a b Hb. rewrite HE'', HE by exact Hb.
    destruct (Nat.eqb_spec a (r0 + i)), (Nat.leb_spec r0 a), (Nat.ltb_spec a (r0 + i)), (Nat.ltb_spec a (r0 + S i)); try lia; cbn [andb]; try reflexivity.
    f_equal. lia.
  - intros M' [H1 H2]. apply HQ; assumption.
Qed.
Lemma gwp_fill_all : forall R C M (g : nat -> nat -> bool) (f : nat -> nat -> gmat -> res gmat) (cols : gmat -> nat) (Q : gmat -> Prop), gok R C M ->
  (forall M', gok R C M' -> cols M' = C) ->
  (forall i j M' (Q' : gmat -> Prop), i < R -> j < C -> gok R C M' -> (forall M'', gok R C M'' ->
     (forall a b, gat M'' a b = if Nat.eqb a i && Nat.eqb b j then g i j else gat M' a b) -> Q' M'') -> wp (f i j M') Q') ->
  (forall M', gok R C M' -> (forall i j, i < R -> j < C -> gat M' i j = g i j) -> Q M') ->
  wp (for_up 0 R (fun i M => for_up 0 (cols M) (fun j M => f i j M) M) M) Q.
Proof.
  intros R C M g f cols Q HM Hcols Hf HQ. apply (gwp_fill_rows R C M 0 R R g); auto.
  - intros i M' Q' Hi HM' HQ'. apply (gwp_fill_row R C M' i 0 C _ (g i)); [exact HM'|exact Hi|lia|apply Hcols; exact HM'| |].
    + intros j M1 Q1 Hj HM1 HQ1. apply Hf; auto.
    + intros M1 HM1 HE. apply HQ'; [exact HM1|]. intros a b Hb. rewrite HE. cbn [Nat.leb Nat.add andb]. rewrite Nat.sub_0_r.
      destruct (Nat.ltb_spec b C); [|lia]. rewrite andb_true_r. reflexivity.
  - intros M' HM' HE. apply HQ; [exact HM'|]. intros i j Hi Hj. rewrite HE by exact Hj. cbn [Nat.leb Nat.add andb]. rewrite Nat.sub_0_r.
    destruct (Nat.ltb_spec i R); [reflexivity|lia].
Qed.
Lemma gwp_diag : forall ra n rb m a b (Q : gmat -> Prop), gok ra n a -> gok rb m b -> n <= ra -> m <= rb ->
  (forall M, gok (n + m) (n + m) M -> feq (n + m) (gat M) (block_diag n (gat a) (gat b)) -> Q M) ->
  wp (combineDiagMat a b) Q.
Proof.
  intros ra n rb m a b Q Ha Hb Hn Hm HQ. unfold combineDiagMat. pose proof Ha as (_ & Ca & _). pose proof Hb as (_ & Cb & _). rewrite Ca, Cb. cbv zeta.
  assert (HZ : forall i M k c0 c1 (Q' : gmat -> Prop), i < n + m -> c0 + c1 <= n + m -> k = c1 -> gok (n + m) (n + m) M ->
     (forall M', gok (n + m) (n + m) M' -> (forall x y, gat M' x y = if Nat.eqb x i && (Nat.leb c0 y && Nat.ltb y (c0 + c1)) then false else gat M x y) -> Q' M') ->
     wp (for_up 0 k (fun j d => gput d i (c0 + j) (to_GF2 0)) M) Q').
  { intros i M k c0 c1 Q' Hi Hc Hk HM HQ'. apply (gwp_fill_row (n + m) (n + m) M i c0 c1 k (fun _ => false)); auto.
    intros j M' Q1 Hj HM' HQ1. apply (wp_gput (n + m) (n + m) M' i (c0 + j) false); auto; lia. }
  assert (HC : forall r c s i M i' c0 (Q' : gmat -> Prop), gok r c s -> i' < r -> i < n + m -> c0 + c <= n + m -> gok (n + m) (n + m) M ->
     (forall M', gok (n + m) (n + m) M' -> (forall x y, gat M' x y = if Nat.eqb x i && (Nat.leb c0 y && Nat.ltb y (c0 + c)) then gat s i' (y - c0) else gat M x y) -> Q' M') ->
     wp (for_up 0 c (fun j d => x <- gget s i' j ;; gput d i (c0 + j) x) M) Q').
  { intros r c s i M i' c0 Q' Hs Hi' Hi Hc HM HQ'. apply (gwp_fill_row (n + m) (n + m) M i c0 c c (fun j => gat s i' j)); auto.
    intros j M' Q1 Hj HM' HQ1. apply wp_bind, (wp_gget r c); auto. apply (wp_gput (n + m) (n + m) M' i (c0 + j) (gat s i' j)); auto; lia. }
  apply wp_bind. apply (gwp_fill_rows (n + m) (n + m) _ 0 n n (fun i y => Nat.ltb y n && gat a i y)); [apply gdims_ok|lia|reflexivity| |].
  - intros i M Q' Hi HM HQ'. apply wp_bind. apply (HC ra n a i M i 0); auto; [lia|lia|lia|]. intros M1 HM1 E1.
    apply (HZ i M1 m n m); auto; [lia|]. intros M2 HM2 E2. apply HQ'; [exact HM2|]. intros x y Hy. rewrite E2, E1. cbn [Nat.add Nat.leb andb]. rewrite Nat.sub_0_r.
    destruct (Nat.eqb_spec x i); [|reflexivity]. cbn [andb].
    destruct (Nat.leb_spec n y), (Nat.ltb_spec y (n + m)), (Nat.ltb_spec y n); try lia; reflexivity.
  - intros M HM EM. apply (gwp_fill_rows (n + m) (n + m) M n m m (fun i y => negb (Nat.ltb y n) && gat b i (y - n))); [exact HM|lia|reflexivity| |].
    + intros i M' Q' Hi HM' HQ'. apply wp_bind. apply (HZ (n + i) M' n 0 n); auto; [lia|lia|]. intros M1 HM1 E1.
      apply (HC rb m b (n + i) M1 i n); auto; [lia|lia|]. intros M2 HM2 E2. apply HQ'; [exact HM2|]. intros x y Hy. rewrite E2, E1. cbn [Nat.add Nat.leb andb].
      destruct (Nat.eqb_spec x (n + i)); [|reflexivity]. cbn [andb].
      destruct (Nat.leb_spec n y), (Nat.ltb_spec y (n + m)), (Nat.ltb_spec y n); try lia; reflexivity.
    + intros M' HM' EM'. apply HQ; [exact HM'|]. intros x y Hx Hy. rewrite EM', EM by exact Hy. unfold block_diag. cbn [Nat.add Nat.leb andb]. rewrite Nat.sub_0_r.
      destruct (Nat.ltb_spec x n), (Nat.leb_spec n x), (Nat.ltb_spec x (n + m)); try lia; reflexivity.
Qed.

Lemma gwp_ind : forall n (Q : gmat -> Prop), (forall M, gok n n M -> feq n (gat M) fid -> Q M) -> wp (genIndMatrix n) Q.
Proof.
  intros n Q HQ. unfold genIndMatrix.
  apply (gwp_fill_all n n _ Nat.eqb (fun i j M => gput M i j (to_GF2 (if Nat.eqb i j then 1 else 0))) (fun _ => n)).
  - apply gdims_ok.
  - reflexivity.
  - intros i j M Q' Hi Hj HM HQ'. replace (to_GF2 (if Nat.eqb i j then 1 else 0)) with (Nat.eqb i j) by (destruct (Nat.eqb i j); reflexivity).
    apply (wp_gput n n); auto.
  - intros M HM HE. apply HQ; [exact HM|]. intros i j Hi Hj. apply HE; assumption.
Qed.
Lemma genZeroVec_eq : forall n, genZeroVec n = Ok (repeat false n).
Proof.
  intros n. apply wp_eq. unfold genZeroVec.
  apply wp_for_up with (I := fun i (v : gvec) => v = repeat false n).
  - lia.
  - reflexivity.
  - intros i v _ Hi ->. apply (wp_vput n); [apply repeat_length|exact Hi|]. intros v' L E. apply (gv_ext n); [exact L|apply repeat_length|].
    intros a Ha. rewrite E. destruct (Nat.eqb_spec a i); [|reflexivity]. unfold gv. symmetry. apply nth_repeat.
  - auto.
Qed.

(** ** Numbers *)

Lemma vbits_length : forall n x, length (vbits n x) = n.
Proof. intros. unfold vbits. rewrite map_length, seq_length. reflexivity. Qed.
Lemma vbits_gv : forall n x, veq n (gv (vbits n x)) (bits n x).
Proof.
  intros n x i Hi. unfold gv, vbits. rewrite (nth_indep _ false (bits n x 0)) by (rewrite map_length, seq_length; exact Hi).
  rewrite map_nth, seq_nth by exact Hi. reflexivity.
Qed.
Lemma vbits_of : forall n x v, length v = n -> veq n (gv v) (bits n x) -> v = vbits n x.
Proof. intros n x v L H. apply (gv_ext n); [exact L|apply vbits_length|]. intros i Hi. rewrite vbits_gv by exact Hi. apply H. exact Hi. Qed.

Lemma odd_rem : forall t, to_GF2 (Z.rem t 2) = Z.testbit t 0.
Proof.
  intros t. unfold to_GF2. rewrite Z.bit0_odd.
  rewrite (Z.quot_rem' t 2) at 2. rewrite Z.odd_add_mul_2 || (rewrite Z.odd_add, Z.odd_mul; cbn [Z.odd]; rewrite andb_false_l, xorb_false_l); reflexivity.
Qed.
Lemma initVecFromBit_eq : forall d n x, (forall k, k < n -> Z.testbit d (Z.of_nat k) = N.testbit x (N.of_nat k)) ->
  initVecFromBit d n = Ok (vbits n x).
Proof.
  intros d n x H. apply wp_eq. unfold initVecFromBit. apply wp_bind.
  apply wp_for_down with (I := fun k (st : gvec * Z) => length (fst st) = n /\
    (forall b, Z.testbit (snd st) (Z.of_nat b) = Z.testbit d (Z.of_nat (b + (n - k)))) /\
    forall i, k <= i -> i < n -> gv (fst st) i = bits n x i).
  - lia.
  - cbn [fst snd]. split; [apply repeat_length|]. split; [intros b; do 2 f_equal; lia|intros; lia].
  - intros i [v t] _ Hi (L & E1 & E2). cbn [fst snd] in *. apply wp_bind, (wp_vput n); auto. intros v' L' E'. apply wp_ok. cbn [fst snd].
    split; [exact L'|]. split.
    + intros b. rewrite Z.shiftr_spec by lia. replace (Z.of_nat b + 1)%Z with (Z.of_nat (b + 1)) by lia. rewrite E1. do 2 f_equal. lia.
    + intros a Ha1 Ha2. rewrite E'. destruct (Nat.eqb_spec a i) as [->|]; [|apply E2; lia].
      rewrite odd_rem. change 0%Z with (Z.of_nat 0). rewrite E1, H by lia. unfold bits. do 2 f_equal. lia.
  - intros [v t] (L & E1 & E2). cbn [fst snd] in *. apply wp_ok. apply vbits_of; [exact L|]. intros i Hi. apply E2; lia.
Qed.
Lemma vec_N : forall n x, initVecFromBit (Z.of_N x) n = Ok (vbits n x).
Proof.
  intros n x. apply initVecFromBit_eq. intros k _. rewrite <- Z.testbit_of_N. f_equal. lia.
Qed.
Lemma to_long_bit : forall u x k, (x < 2 ^ 32)%N -> k < 32 -> Z.testbit (to_long u x) (Z.of_nat k) = N.testbit x (N.of_nat k).
Proof.
  intros u x k Hx Hk. assert (E : Z.testbit (Z.of_N x) (Z.of_nat k) = N.testbit x (N.of_nat k)).
  { rewrite <- Z.testbit_of_N. f_equal. lia. }
  destruct u; cbn [to_long]; [|exact E]. destruct (N.ltb x (2 ^ 31)); [exact E|].
  rewrite <- E. rewrite <- (Z.mod_pow2_bits_low (Z.of_N x - 2 ^ 32) 32) by lia.
  rewrite <- (Z.mod_pow2_bits_low (Z.of_N x) 32) by lia. f_equal.
  replace (Z.of_N x - 2 ^ 32)%Z with (Z.of_N x + (-1) * 2 ^ 32)%Z by lia. apply Z.mod_add. discriminate.
Qed.
Lemma vec_long : forall u n x, (x < 2 ^ 32)%N -> n <= 32 -> initVecFromBit (to_long u x) n = Ok (vbits n x).
Proof. intros u n x Hx Hn. apply initVecFromBit_eq. intros k Hk. apply to_long_bit; [exact Hx|lia]. Qed.

Lemma gdigits_eq : forall w n v, n <= length v -> gdigits (N.of_nat w) n v = Ok (num n (gv v) mod 2 ^ N.of_nat w)%N.
Proof.
  intros w n v HL. apply wp_eq. unfold gdigits.
  apply wp_for_up with (I := fun i d => d = (num i (gv v) mod 2 ^ N.of_nat w)%N).
  - lia.
  - cbn [num]. symmetry. apply N.mod_0_l. apply N.pow_nonzero. lia.
  - intros i d _ Hi ->. apply wp_bind, (wp_vget (length v)); auto; [lia|]. apply wp_ok. cbn [num]. rewrite N.shiftl_mul_pow2.
    change (2 ^ 1)%N with 2%N.
    assert (H2 : (2 ^ N.of_nat w <> 0)%N) by (apply N.pow_nonzero; lia).
    rewrite N.add_mod_idemp_l by exact H2. rewrite (N.mul_comm _ 2).
    rewrite <- (N.add_mod_idemp_l (2 * (_ mod _))) by exact H2. rewrite N.mul_mod_idemp_r by exact H2.
    apply N.add_mod_idemp_l. exact H2.
  - auto.
Qed.
Lemma num_mod : forall n w f, n <= w -> (num n f mod 2 ^ N.of_nat w = num n f)%N.
Proof.
  intros n w f H. apply N.mod_small. eapply N.lt_le_trans; [apply num_lt|]. apply N.pow_le_mono_r; lia.
Qed.
Lemma getDigital_eq : forall n v, length v = n -> n <= 32 -> getDigitalFromVec v = Ok (num n (gv v)).
Proof.
  intros n v L H. unfold getDigitalFromVec. change 32%N with (N.of_nat 32). rewrite gdigits_eq by lia. rewrite L, num_mod by exact H. reflexivity.
Qed.
Lemma get32_eq : forall v, 32 <= length v -> get32FromVec v = Ok (num 32 (gv v)).
Proof. intros v L. unfold get32FromVec. change 32%N with (N.of_nat 32). rewrite gdigits_eq by lia. rewrite num_mod by lia. reflexivity. Qed.
Lemma get8_eq : forall v, 8 <= length v -> get8FromVec v = Ok (num 8 (gv v)).
Proof. intros v L. unfold get8FromVec. change 8%N with (N.of_nat 8). rewrite gdigits_eq by lia. rewrite num_mod by lia. reflexivity. Qed.

(** rows from numbers *)
Lemma wp_mat_bits : forall R C M data (Q : gmat -> Prop) (h : nat -> nat -> bool), gok R C M -> length data = R ->
  (forall i k, i < R -> k < C -> Z.testbit (nth i data 0%Z) (Z.of_nat k) = h i (C - 1 - k)) ->
  (forall M', gok R C M' -> (forall i j, i < R -> j < C -> gat M' i j = h i j) -> Q M') ->
  wp (initMatrixFromBit M data) Q.
Proof.
  intros R C M data Q h HM HD Hh HQ. unfold initMatrixFromBit. rewrite (proj1 HM).
  apply (gwp_fill_rows R C M 0 R R h); auto.
  - intros i M' Q' Hi HM' HQ'. apply wp_bind, wp_aget with (d := 0%Z); [lia|]. apply wp_bind.
    rewrite (proj1 (proj2 HM')).
    apply wp_for_down with (I := fun k (st : gmat * Z) => gok R C (fst st) /\
      (forall b, Z.testbit (snd st) (Z.of_nat b) = Z.testbit (nth i data 0%Z) (Z.of_nat (b + (C - k)))) /\
      forall a c, c < C -> gat (fst st) a c = if Nat.eqb a i && Nat.leb k c then h i c else gat M' a c).
    + lia.
    + cbn [fst snd]. split; [exact HM'|]. split; [intros b; do 2 f_equal; lia|]. intros a c Hc. destruct (Nat.leb_spec C c); [lia|].
      rewrite andb_false_r. reflexivity.
    + intros k [M1 t] _ Hk (H1 & H2 & H3). cbn [fst snd] in *. apply wp_bind, (wp_gput R C); auto. intros M2 HM2 E2. apply wp_ok. cbn [fst snd].
      split; [exact HM2|]. split.
      * intros b. rewrite Z.shiftr_spec by lia. replace (Z.of_nat b + 1)%Z with (Z.of_nat (b + 1)) by lia. rewrite H2. do 2 f_equal. lia.
      * intros a c Hc. rewrite E2, H3 by exact Hc. destruct (Nat.eqb_spec a i); [|reflexivity]. cbn [andb].
        destruct (Nat.eqb_spec c k) as [->|].
        -- destruct (Nat.leb_spec k k); [|lia]. rewrite odd_rem. change 0%Z with (Z.of_nat 0). rewrite H2, Hh by lia. f_equal. lia.
        -- destruct (Nat.leb_spec k c), (Nat.leb_spec (S k) c); try lia; reflexivity.
    + intros [M1 t] (H1 & H2 & H3). cbn [fst snd] in *. apply wp_ok. apply HQ'; [exact H1|]. intros a b Hb. rewrite H3 by exact Hb.
      cbn [Nat.leb Nat.add]. rewrite andb_true_r. reflexivity.
  - intros M' HM' E. apply HQ; [exact HM'|]. intros i j Hi Hj. rewrite E by exact Hj. cbn [Nat.leb Nat.add andb]. rewrite Nat.sub_0_r.
    destruct (Nat.ltb_spec i R); [reflexivity|lia].
Qed.

(** ** Affine maps *)

Definition okg (n : nat) (f : gaff) : Prop := gok n n (glin f) /\ length (gtra f) = n.

Lemma wp_aff_vec : forall n f v (Q : gvec -> Prop), okg n f -> length v = n ->
  (forall w, length w = n -> veq n (gv w) (affine_f n (gat (glin f)) (gv (gtra f)) (gv v)) -> Q w) ->
  wp (m <- gmulv (glin f) v ;; gaddv m (gtra f)) Q.
Proof.
  intros n f v Q [H1 H2] Hv HQ. apply wp_bind, (wp_gmulv n n); auto. intros m Lm Em. apply (wp_gaddv n); auto.
  intros u Lu Eu. apply HQ; [exact Lu|]. intros i Hi. rewrite Eu by exact Hi. unfold affine_f, vadd. rewrite Em by exact Hi. reflexivity.
Qed.
Lemma num_aff : forall n f x w, veq n (gv w) (affine_f n (gat (glin f)) (gv (gtra f)) (gv (vbits n x))) -> num n (gv w) = affine_g n f x.
Proof.
  intros n f x w H. unfold affine_g. apply num_ext. rewrite H. apply affine_f_ext; [reflexivity|reflexivity|apply vbits_gv].
Qed.
Lemma apply32_eq : forall nt f x, okg 32 f -> (x < 2 ^ 32)%N -> applyAffineToU32 nt f x = Ok (affine_g 32 f x).
Proof.
  intros nt f x Hf Hx. apply wp_eq. unfold applyAffineToU32. rewrite vec_long by (auto; lia). cbn [bind].
  destruct Hf as [H1 H2]. apply wp_bind, (wp_gmulv 32 32); [exact H1|apply vbits_length|]. intros m Lm Em.
  apply wp_bind, (wp_gaddv 32); auto. intros u Lu Eu. rewrite get32_eq by lia. apply wp_ok. apply num_aff.
  intros i Hi. rewrite Eu by exact Hi. unfold affine_f, vadd. rewrite Em by exact Hi. reflexivity.
Qed.
Lemma apply8_eq : forall f x, okg 8 f -> applyAffineToU8 f x = Ok (affine_g 8 f x).
Proof.
  intros f x [H1 H2]. apply wp_eq. unfold applyAffineToU8. rewrite vec_N. cbn [bind].
  apply wp_bind, (wp_gmulv 8 8); [exact H1|apply vbits_length|]. intros m Lm Em.
  apply wp_bind, (wp_gaddv 8); auto. intros u Lu Eu. rewrite (getDigital_eq 8) by (auto; lia). cbn [bind]. apply wp_ok.
  change 256%N with (2 ^ N.of_nat 8)%N. rewrite (num_mod 8 8 (gv u)) by lia. apply num_aff.
  intros i Hi. rewrite Eu by exact Hi. unfold affine_f, vadd. rewrite Em by exact Hi. reflexivity.
Qed.

Lemma ag_lt : forall n f x, (affine_g n f x < 2 ^ N.of_nat n)%N.
Proof. intros. apply num_lt. Qed.
Lemma ag_bits : forall n f x, veq n (bits n (affine_g n f x)) (affine_f n (gat (glin f)) (gv (gtra f)) (bits n x)).
Proof. intros. apply bits_num. Qed.
Lemma ag_inv : forall n f g, (forall x, veq n (affine_f n (gat (glin g)) (gv (gtra g))
    (affine_f n (gat (glin f)) (gv (gtra f)) x)) x) ->
  forall x, (x < 2 ^ N.of_nat n)%N -> affine_g n g (affine_g n f x) = x.
Proof.
  intros n f g H x Hx. apply (bits_ext n); [apply ag_lt|exact Hx|]. rewrite ag_bits.
  rewrite (affine_f_ext n (gat (glin g)) (gat (glin g)) (gv (gtra g)) (gv (gtra g)) _ _ (reflexivity _) (reflexivity _) (ag_bits n f x)).
  apply H.
Qed.
Lemma ag_comp : forall n f g h, feq n (gat (glin h)) (fmul n (gat (glin f)) (gat (glin g))) ->
  veq n (gv (gtra h)) (vadd (fapp n (gat (glin f)) (gv (gtra g))) (gv (gtra f))) ->
  forall x, affine_g n h x = affine_g n f (affine_g n g x).
Proof.
  intros n f g h HL HV x. apply (bits_ext n); try apply ag_lt. rewrite !ag_bits.
  rewrite (affine_f_ext n _ _ _ _ _ _ HL HV (reflexivity _)).
  rewrite (affine_f_ext n _ _ _ _ _ _ (reflexivity _) (reflexivity _) (ag_bits n g x)).
  unfold affine_f. rewrite fapp_vadd, fmul_fapp. intros i _. unfold vadd. rewrite xorb_assoc. reflexivity.
Qed.
Lemma ag_xor : forall n f x y, affine_g n f (N.lxor x y) = N.lxor (N.lxor (affine_g n f x) (affine_g n f y)) (num n (gv (gtra f))).
Proof.
  intros n f x y. apply (bits_ext n); [apply ag_lt|repeat apply WBSM4M.lxor_lt; try apply ag_lt; apply num_lt|].
  intros i Hi. rewrite !bits_lxor. rewrite bits_num by exact Hi. rewrite !ag_bits by exact Hi. unfold affine_f, vadd.
  rewrite (fapp_proper n _ _ (reflexivity (gat (glin f))) _ _ (WBSM4M.bits_lxor_v n x y) i Hi). rewrite (fapp_vadd n _ _ _ i Hi).
  unfold vadd. destruct (fapp n (gat (glin f)) (bits n x) i), (fapp n (gat (glin f)) (bits n y) i), (gv (gtra f) i); reflexivity.
Qed.
Lemma ag_xor3 : forall n f x y z,
  affine_g n f (N.lxor (N.lxor x y) z) = N.lxor (N.lxor (affine_g n f x) (affine_g n f y)) (affine_g n f z).
Proof.
  intros n f x y z. rewrite !ag_xor. rewrite !N.lxor_assoc. do 2 f_equal. rewrite N.lxor_comm, N.lxor_assoc, N.lxor_nilpotent.
  apply N.lxor_0_r.
Qed.

(** ** Loops with enough fuel *)

Lemma ev_for_up : forall St (F : nat -> nat -> option St -> res (option St)) (I : nat -> St -> Prop) b a x, a <= b -> I a x ->
  (forall i x, a <= i -> i < b -> I i x -> exists f0 y, I (S i) y /\ forall f, f0 <= f -> F f i (Some x) = Ok (Some y)) ->
  exists f0 y, I b y /\ forall f, f0 <= f -> for_up a b (F f) (Some x) = Ok (Some y).
Proof.
  intros St F I b a x Hab H0 Hs. unfold for_up. remember (b - a) as k eqn:Ek. revert a x Hab H0 Hs Ek.
  induction k as [|k IH]; intros a x Hab H0 Hs Ek.
  - exists 0, x. split; [replace b with a by lia; exact H0|reflexivity].
  - destruct (Hs a x ltac:(lia) ltac:(lia) H0) as (f1 & y & Hy & E1).
    destruct (IH (S a) y ltac:(lia) Hy) as (f2 & z & Hz & E2); [intros; apply Hs; auto; lia|lia|].
    exists (Nat.max f1 f2), z. split; [exact Hz|]. intros f Hf. cbn [up_n]. rewrite E1 by lia. cbn [bind]. apply E2. lia.
Qed.
Lemma wp_ex : forall A (c : res A) (Q : A -> Prop), wp c Q -> exists a, c = Ok a /\ Q a.
Proof. intros A [a|] Q H; [exists a; split; [reflexivity|exact H]|destruct H]. Qed.

(** ** Pairs of affine maps *)

Definition pairG (n : nat) (f g : gaff) : Prop :=
  okg n f /\ okg n g /\ invertible n (gat (glin f)) /\
  (forall x, (x < 2 ^ N.of_nat n)%N -> affine_g n g (affine_g n f x) = x) /\
  (forall x, (x < 2 ^ N.of_nat n)%N -> affine_g n f (affine_g n g x) = x).
Lemma pair_of : forall n X Y V W, gok n n X -> gok n n Y -> length V = n -> length W = n -> inverse_of n (gat X) (gat Y) ->
  veq n (gv W) (fapp n (gat Y) (gv V)) -> pairG n (mkgaff X V) (mkgaff Y W).
Proof.
  intros n X Y V W HX HY HV HW HI HE. split; [split; assumption|]. split; [split; assumption|]. split; [exists (gat Y); exact HI|].
  assert (A := affine_inverse n (gat X) (gat Y) (gv V) (gv W) HI HE).
  split; apply ag_inv; cbn [glin gtra]; intros x; apply A.
Qed.

Section Ntl.
Variable nt : ntl.
Hypothesis HN : ntl_ok nt.

(** RANDOM_AFFINE_MAT *)
Lemma gen5_sound : forall fuel n s,
  wp (genRandomAffineMatrix5 fuel nt n s) (fun o => match o with
    | None => True
    | Some (X, Y, V, W, s') => pairG n (mkgaff X V) (mkgaff Y W) /\
        exists l s1, inv_from (trand nt) n s s1 l /\ X = mkgmat n n l /\ V = block (trand nt) n s1 /\ s' = s1 + n end).
Proof.
  intros fuel n s. unfold genRandomAffineMatrix5, genRandomAffineMatrix. apply wp_bind, wp_bind. eapply wp_mono; [apply (random_inv_sound nt HN)|].
  intros [[X s1]|]; [|intros _; apply wp_ok, wp_ok; exact I]. intros (l & -> & Hl).
  destruct (inv_from_ok nt _ _ _ _ Hl) as [G1 G2]. apply wp_bind, (wp_ginv nt n); auto. intros Y HY HI.
  rewrite initVec_eq. cbn [bind]. apply wp_ok. apply wp_bind, (wp_gmulv n n); [exact HY|apply block_length|]. intros W LW EW. apply wp_ok.
  split; [apply pair_of; auto; apply block_length|]. exists l, s1. auto.
Qed.
Lemma gen5_complete : forall n s, always (trand nt) n ->
  exists f0 X Y V W s', pairG n (mkgaff X V) (mkgaff Y W) /\
    forall f, f0 <= f -> genRandomAffineMatrix5 f nt n s = Ok (Some (X, Y, V, W, s')).
Proof.
  intros n s HA. destruct (HA s) as (s1 & l & Hl). destruct (random_inv_complete nt HN _ _ _ _ Hl) as [f0 F].
  destruct (inv_from_ok nt _ _ _ _ Hl) as [G1 G2].
  destruct (wp_ex _ (ginv nt (mkgmat n n l)) (fun Y => gok n n Y /\ inverse_of n (gat (mkgmat n n l)) (gat Y))) as (Y & EY & HY & HI).
  { apply (wp_ginv nt n); auto. }
  destruct (wp_ex _ (gmulv Y (block (trand nt) n s1)) (fun W => length W = n /\ veq n (gv W) (fapp n (gat Y) (gv (block (trand nt) n s1)))))
    as (W & EW & LW & HW).
  { apply (wp_gmulv n n); auto. apply block_length. }
  exists f0, (mkgmat n n l), Y, (block (trand nt) n s1), W, (s1 + n). split; [apply pair_of; auto; apply block_length|].
  intros f Hf. unfold genRandomAffineMatrix5, genRandomAffineMatrix. rewrite F by exact Hf. cbn [bind]. rewrite EY. cbn [bind].
  rewrite initVec_eq. cbn [bind]. rewrite EW. reflexivity.
Qed.
End Ntl.
