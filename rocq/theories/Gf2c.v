(** Matrices from arrays, block diagonal matrices, export and import: lemmas for ModelGf2.v *)
From Coq Require Import Arith NArith ZArith List Bool Lia ZifyNat Setoid Morphisms.
From Verif Require Import Base Spec LinAlg ModelM4ri SpecM4ri M4ri1 ModelGf2 SpecGf2 Gf2a Gf2b.
Import ListNotations.
Local Open Scope nat_scope.
#[local] Ltac Zify.zify_post_hook ::= Z.to_euclidean_division_equations.

(** ** Whole rows *)

Lemma wp_fill_rows : forall R C M r0 r1 r (h : nat -> nat -> bool) (f : nat -> mzd -> res mzd) (Q : mzd -> Prop), okm R C M -> r0 + r1 <= R ->
  r = r1 ->
  (forall i M' (Q' : mzd -> Prop), i < r1 -> okm R C M' -> (forall M'', okm R C M'' ->
     (forall a b, b < C -> bitat M'' a b = if Nat.eqb a (r0 + i) then h i b else bitat M' a b) -> Q' M'') -> wp (f i M') Q') ->
  (forall M', okm R C M' -> (forall a b, b < C -> bitat M' a b =
     if Nat.leb r0 a && Nat.ltb a (r0 + r1) then h (a - r0) b else bitat M a b) -> Q M') ->
  wp (for_up 0 r f M) Q.
Proof.
  intros R C M r0 r1 r h f Q HM Hr -> Hf HQ.
  apply wp_for_up with (I := fun i M' => okm R C M' /\ forall a b, b < C -> bitat M' a b =
     if Nat.leb r0 a && Nat.ltb a (r0 + i) then h (a - r0) b else bitat M a b).
  - lia.
  - split; [exact HM|]. intros a b _. destruct (Nat.leb_spec r0 a), (Nat.ltb_spec a (r0 + 0)); try lia; reflexivity.
  - intros i M' _ Hi [HM' HE]. apply (Hf i M' _ Hi HM'). intros M'' HM'' HE''. split; [exact HM''|].
    intros a b Hb. rewrite HE'', HE by exact Hb.
    destruct (Nat.eqb_spec a (r0 + i)), (Nat.leb_spec r0 a), (Nat.ltb_spec a (r0 + i)), (Nat.ltb_spec a (r0 + S i)); try lia; cbn [andb]; try reflexivity.
    f_equal. lia.
  - intros M' [H1 H2]. apply HQ; assumption.
Qed.

(** all entries of an R x C matrix, written one after the other *)
Lemma wp_fill_all : forall R C M (g : nat -> nat -> bool) (f : nat -> nat -> mzd -> res mzd) (cols : mzd -> nat) (Q : mzd -> Prop), okm R C M ->
  (forall M', okm R C M' -> cols M' = C) ->
  (forall i j M' (Q' : mzd -> Prop), i < R -> j < C -> okm R C M' -> (forall M'', okm R C M'' ->
     (forall a b, bitat M'' a b = if Nat.eqb a i && Nat.eqb b j then g i j else bitat M' a b) -> Q' M'') -> wp (f i j M') Q') ->
  (forall M', okm R C M' -> (forall i j, i < R -> j < C -> bitat M' i j = g i j) -> Q M') ->
  wp (for_up 0 R (fun i M => for_up 0 (cols M) (fun j M => f i j M) M) M) Q.
Proof.
  intros R C M g f cols Q HM Hcols Hf HQ. apply (wp_fill_rows R C M 0 R R g); auto.
  - intros i M' Q' Hi HM' HQ'. apply (wp_fill_row R C M' i 0 C _ (g i)); [exact HM'|exact Hi|lia|apply Hcols; exact HM'| |].
    + intros j M1 Q1 Hj HM1 HQ1. apply Hf; auto.
    + intros M1 HM1 HE. apply HQ'; [exact HM1|]. intros a b Hb. rewrite HE. cbn [Nat.leb Nat.add andb]. rewrite Nat.sub_0_r.
      destruct (Nat.ltb_spec b C); [|lia]. rewrite andb_true_r. reflexivity.
  - intros M' HM' HE. apply HQ; [exact HM'|]. intros i j Hi Hj. rewrite HE by exact Hj. cbn [Nat.leb Nat.add andb]. rewrite Nat.sub_0_r.
    destruct (Nat.ltb_spec i R); [reflexivity|lia].
Qed.

Lemma wp_ind : forall n (Q : mzd -> Prop), (forall M, okm n n M -> feq n (bitat M) fid -> Q M) -> wp (GenIndMatrix n) Q.
Proof.
  intros n Q HQ. unfold GenIndMatrix. apply (wp_fill_all n n _ Nat.eqb (fun i j M => MatGf2Set M i j (if Nat.eqb i j then 1 else 0)) (fun _ => n)).
  - apply init_ok.
  - reflexivity.
  - intros i j M Q' Hi Hj HM HQ'. apply (wp_set n n M i j _ (Nat.eqb i j)); auto. apply rem_bit.
  - intros M HM HE. apply HQ; [exact HM|]. intros i j Hi Hj. apply HE; assumption.
Qed.
Lemma wp_zero : forall n (Q : mzd -> Prop), (forall M, okm n 1 M -> (forall i, i < n -> bitat M i 0 = false) -> Q M) -> wp (GenZeroVec n) Q.
Proof.
  intros n Q HQ. unfold GenZeroVec. destruct (init_ok n 1) as [I1 I2].
  apply (wp_fill_rows n 1 _ 0 n n (fun _ _ => false)); auto.
  - intros i M Q' Hi HM HQ'. apply (wp_set n 1 M i 0 0 false); auto. intros M' HM' HE. apply HQ'; [exact HM'|].
    intros a b Hb. rewrite HE. replace b with 0 by lia. rewrite andb_true_r. reflexivity.
  - intros M HM HE. apply HQ; [exact HM|]. intros i Hi. rewrite HE by lia. rewrite I2. destruct (_ && _); reflexivity.
Qed.

Lemma wp_values : forall R C data M (Q : mzd -> Prop), okm R C M -> (forall x, In x data -> (0 <= x)%Z) ->
  (forall i j, i < R -> j < C -> R * i + j < length data) ->
  (forall M', okm R C M' -> (forall i j, i < R -> j < C -> bitat M' i j = Z.odd (nth (R * i + j) data 0%Z)) -> Q M') ->
  wp (InitMatGf2ByValueArray data M) Q.
Proof.
  intros R C data M Q HM Hp HL HQ. unfold InitMatGf2ByValueArray. rewrite (proj1 HM).
  apply (wp_fill_all R C M (fun i j => Z.odd (nth (R * i + j) data 0%Z)) (fun i j M => x <- aget data (R * i + j) ;; MatGf2Set M i j x) mncols); auto.
  - intros M' HM'. apply HM'.
  - intros i j M' Q' Hi Hj HM' HQ'. assert (L := HL i j Hi Hj). apply wp_bind, (wp_aget _ _ _ 0%Z); [exact L|].
    apply (wp_set R C M' i j _ (Z.odd (nth (R * i + j) data 0%Z))); auto.
    assert (P := Hp _ (nth_In data 0%Z L)). rewrite Z.rem_mod_nonneg by lia. rewrite Zmod_odd. reflexivity.
Qed.

Lemma wp_bit_row : forall R C M i x (Q : mzd -> Prop), okm R C M -> i < R ->
  (forall M', okm R C M' -> (forall a b, b < C -> bitat M' a b = if Nat.eqb a i then bits C x b else bitat M a b) -> Q M') ->
  wp (' (M, _) <- for_down C 0 (fun j st =>
        let (M, t) := st : mzd * N in
        M' <- MatGf2Set M i j (Z.of_N (t mod 2)) ;; Ok (M', N.shiftr t 1)) (M, x) ;; Ok M) Q.
Proof.
  intros R C M i x Q HM Hi HQ. apply wp_bind.
  apply wp_for_down with (I := fun k (st : mzd * N) => okm R C (fst st) /\ (forall b, tb (snd st) b = tb x (b + (C - k))) /\
    forall a b, b < C -> bitat (fst st) a b = if Nat.eqb a i && Nat.leb k b then bits C x b else bitat M a b).
  - lia.
  - cbn [fst snd]. split; [exact HM|]. split; [intros b; f_equal; lia|]. intros a b Hb. destruct (Nat.leb_spec C b); [lia|]. rewrite andb_false_r. reflexivity.
  - intros j [M' t] _ Hj (H1 & H2 & H3). cbn [fst snd] in *. apply wp_bind. apply (wp_set R C M' i j _ (tb t 0)); auto; [apply rem_ofN|].
    intros M'' HM'' HE. apply wp_ok. cbn [fst snd]. split; [exact HM''|]. split.
    + intros b. rewrite tb_half, H2. f_equal. lia.
    + intros a b Hb. rewrite HE, H3 by exact Hb. destruct (Nat.eqb_spec a i); [|reflexivity]. cbn [andb].
      destruct (Nat.eqb_spec b j), (Nat.leb_spec j b), (Nat.leb_spec (S j) b); try lia; try reflexivity.
      rewrite H2. subst b. unfold bits, tb. do 2 f_equal. lia.
  - intros [M' t] (H1 & H2 & H3). cbn [fst snd] in *. apply wp_ok, HQ; [exact H1|]. intros a b Hb. rewrite H3 by exact Hb.
    cbn [Nat.leb]. rewrite andb_true_r. reflexivity.
Qed.
Lemma wp_bit_array : forall R C data M (Q : mzd -> Prop), okm R C M -> R <= length data ->
  (forall M', okm R C M' -> (forall i j, i < R -> j < C -> bitat M' i j = bits C (nth i data 0%N) j) -> Q M') ->
  wp (InitMatrixFromBitArray data M) Q.
Proof.
  intros R C data M Q HM HL HQ. unfold InitMatrixFromBitArray. rewrite (proj1 HM).
  apply (wp_fill_rows R C M 0 R R (fun i b => bits C (nth i data 0%N) b)); auto.
  - intros i M' Q' Hi HM' HQ'. apply wp_bind, (wp_aget _ _ _ 0%N); [lia|]. replace (mncols M') with C by (symmetry; apply HM').
    apply (wp_bit_row R C M' i); auto.
  - intros M' HM' HE. apply HQ; [exact HM'|]. intros i j Hi Hj. rewrite HE by exact Hj. cbn [Nat.leb Nat.add andb]. rewrite Nat.sub_0_r.
    destruct (Nat.ltb_spec i R); [reflexivity|lia].
Qed.

(** ** Block diagonal matrices; the numbers of rows may be larger than the numbers of columns *)

Lemma wp_diag : forall ra n rb m a b (Q : mzd -> Prop), okm ra n a -> okm rb m b -> n <= ra -> m <= rb ->
  (forall M, okm (n + m) (n + m) M -> feq (n + m) (bitat M) (block_diag n (bitat a) (bitat b)) -> Q M) ->
  wp (MatGf2Diag a b) Q.
Proof.
  intros ra n rb m a b Q Ha Hb Hn Hm HQ. unfold MatGf2Diag. pose proof Ha as (_ & Ca & _). pose proof Hb as (_ & Cb & _). rewrite Ca, Cb. cbv zeta.
  assert (HZ : forall i M k c0 c1 (Q' : mzd -> Prop), i < n + m -> c0 + c1 <= n + m -> k = c1 -> okm (n + m) (n + m) M ->
     (forall M', okm (n + m) (n + m) M' -> (forall x y, bitat M' x y = if Nat.eqb x i && (Nat.leb c0 y && Nat.ltb y (c0 + c1)) then false else bitat M x y) -> Q' M') ->
     wp (for_up 0 k (fun j d => MatGf2Set d i (c0 + j) 0) M) Q').
  { intros i M k c0 c1 Q' Hi Hc Hk HM HQ'. apply (wp_fill_row (n + m) (n + m) M i c0 c1 k (fun _ => false)); auto.
    intros j M' Q1 Hj HM' HQ1. apply (wp_set (n + m) (n + m) M' i (c0 + j) 0 false); auto; lia. }
  assert (HC : forall r c s i M i' c0 (Q' : mzd -> Prop), okm r c s -> i' < r -> i < n + m -> c0 + c <= n + m -> okm (n + m) (n + m) M ->
     (forall M', okm (n + m) (n + m) M' -> (forall x y, bitat M' x y = if Nat.eqb x i && (Nat.leb c0 y && Nat.ltb y (c0 + c)) then bitat s i' (y - c0) else bitat M x y) -> Q' M') ->
     wp (for_up 0 c (fun j d => x <- MatGf2Get s i' j ;; MatGf2Set d i (c0 + j) x) M) Q').
  { intros r c s i M i' c0 Q' Hs Hi' Hi Hc HM HQ'. apply (wp_fill_row (n + m) (n + m) M i c0 c c (fun j => bitat s i' j)); auto.
    intros j M' Q1 Hj HM' HQ1. apply wp_bind, (wp_get r c); auto. apply (wp_set (n + m) (n + m) M' i (c0 + j) _ (bitat s i' j)); auto; [lia|apply rem_b2z]. }
  apply wp_bind. apply (wp_fill_rows (n + m) (n + m) _ 0 n n (fun i y => Nat.ltb y n && bitat a i y)); [apply init_ok|lia|reflexivity| |].
  - intros i M Q' Hi HM HQ'. apply wp_bind. apply (HC ra n a i M i 0); auto; [lia|lia|lia|]. intros M1 HM1 E1.
    apply (HZ i M1 m n m); auto; [lia|]. intros M2 HM2 E2. apply HQ'; [exact HM2|]. intros x y Hy. rewrite E2, E1. cbn [Nat.add Nat.leb andb]. rewrite Nat.sub_0_r.
    destruct (Nat.eqb_spec x i); [|reflexivity]. cbn [andb].
    destruct (Nat.leb_spec n y), (Nat.ltb_spec y (n + m)), (Nat.ltb_spec y n); try lia; reflexivity.
  - intros M HM EM. apply (wp_fill_rows (n + m) (n + m) M n m m (fun i y => negb (Nat.ltb y n) && bitat b i (y - n))); [exact HM|lia|reflexivity| |].
    + intros i M' Q' Hi HM' HQ'. apply wp_bind. apply (HZ (n + i) M' n 0 n); auto; [lia|lia|]. intros M1 HM1 E1.
      apply (HC rb m b (n + i) M1 i n); auto; [lia|lia|]. intros M2 HM2 E2. apply HQ'; [exact HM2|]. intros x y Hy. rewrite E2, E1. cbn [Nat.add Nat.leb andb].
      destruct (Nat.eqb_spec x (n + i)); [|reflexivity]. cbn [andb].
      destruct (Nat.leb_spec n y), (Nat.ltb_spec y (n + m)), (Nat.ltb_spec y n); try lia; reflexivity.
    + intros M' HM' EM'. apply HQ; [exact HM'|]. intros x y Hx Hy. rewrite EM', EM by exact Hy. unfold block_diag. cbn [Nat.add Nat.leb andb]. rewrite Nat.sub_0_r.
      destruct (Nat.ltb_spec x n), (Nat.leb_spec n x), (Nat.ltb_spec x (n + m)); try lia; reflexivity.
Qed.

(** ** Buffers *)

Lemma aget_app : forall A (l1 l2 : list A) k, aget (l1 ++ l2) (length l1 + k) = aget l2 k.
Proof. intros. unfold aget. rewrite nth_error_app2 by lia. do 2 f_equal. replace (length l1 + k - length l1) with k by lia. reflexivity. Qed.
Lemma upd_app : forall A (l1 l2 : list A) k x, upd (l1 ++ l2) (length l1 + k) x = l1 ++ upd l2 k x.
Proof. induction l1 as [|y l1 IH]; intros; [reflexivity|]. cbn. f_equal. apply IH. Qed.
Lemma aset_app : forall A (l1 l2 : list A) k x, k < length l2 -> aset (l1 ++ l2) (length l1 + k) x = Ok (l1 ++ upd l2 k x).
Proof. intros. unfold aset. rewrite app_length. destruct (Nat.ltb_spec (length l1 + k) (length l1 + length l2)); [|lia]. rewrite upd_app. reflexivity. Qed.

Lemma shr_div : forall x k, N.shiftr x (N.of_nat k) = (x / 2 ^ N.of_nat k)%N.
Proof. intros. apply N.shiftr_div_pow2. Qed.

Lemma put_u32_ok : forall pre a b c d post x, put_u32 (pre ++ [a; b; c; d] ++ post) (length pre) x = Ok (pre ++ le4 x ++ post).
Proof.
  intros. unfold put_u32, for_up. cbn [Nat.sub up_n app].
  do 4 (rewrite aset_app by (cbn [length upd]; lia); cbn [bind upd]). unfold le4. rewrite !shr_div.
  change (2 ^ N.of_nat (8 * 0))%N with 1%N. change (2 ^ N.of_nat (8 * 1))%N with 256%N.
  change (2 ^ N.of_nat (8 * 2))%N with 65536%N. change (2 ^ N.of_nat (8 * 3))%N with 16777216%N. rewrite N.div_1_r. reflexivity.
Qed.
Lemma get_u32_ok : forall pre post x, (x < 2 ^ 32)%N -> get_u32 (pre ++ le4 x ++ post) (length pre) = Ok x.
Proof.
  intros pre post x Hx. unfold get_u32, for_up, le4. cbn [Nat.sub up_n app].
  rewrite !aget_app. cbn [aget nth_error bind]. f_equal. rewrite !N.shiftl_mul_pow2.
  change (2 ^ N.of_nat (8 * 0))%N with 1%N. change (2 ^ N.of_nat (8 * 1))%N with 256%N.
  change (2 ^ N.of_nat (8 * 2))%N with 65536%N. change (2 ^ N.of_nat (8 * 3))%N with 16777216%N.
  change (2 ^ 32)%N with 4294967296%N in Hx. lia.
Qed.

Lemma length_str : forall R C f, length (str_of R C f) = 8 + R * C.
Proof. intros. unfold str_of. rewrite !app_length, map_length, seq_length. reflexivity. Qed.
Lemma malloc_len : forall e n, length (malloc e n) = n.
Proof. intros. unfold malloc. rewrite map_length, seq_length. reflexivity. Qed.

(** entry (i, j) is number i * C + j *)
Lemma idx_div : forall C i j, j < C -> (i * C + j) / C = i /\ (i * C + j) mod C = j.
Proof.
  intros C i j Hj. split.
  - rewrite Nat.div_add_l by lia. rewrite Nat.div_small by exact Hj. lia.
  - rewrite Nat.add_comm, Nat.mod_add by lia. apply Nat.mod_small. exact Hj.
Qed.
Lemma idx_lt : forall R C i j, i < R -> j < C -> i * C + j < R * C.
Proof. intros. nia. Qed.

Lemma export_ok : forall e R C A, okm R C A -> (8 + N.of_nat R * N.of_nat C < 2 ^ 31)%N ->
  ExportMatGf2ToStr e A = Ok (str_of R C (bitat A)).
Proof.
  intros e R C A HA HS.
  assert (H : wp (ExportMatGf2ToStr e A) (fun s => s = str_of R C (bitat A))); [|destruct (wp_exists _ _ _ H) as (y & E & ->); exact E].
  unfold ExportMatGf2ToStr. pose proof HA as (E1 & E2 & _). rewrite E1, E2. rewrite (proj2 (N.ltb_lt _ _) HS). cbn [negb].
  assert (HL := malloc_len e (8 + R * C)). cbv zeta.
  destruct (malloc e (8 + R * C)) as [|b0 [|b1 [|b2 [|b3 [|b4 [|b5 [|b6 [|b7 tail]]]]]]]]; cbn [length] in HL; try lia.
  assert (HT : length tail = R * C) by lia. clear HL.
  rewrite (put_u32_ok [] b0 b1 b2 b3 (b4 :: b5 :: b6 :: b7 :: tail)). cbn [bind app].
  rewrite (put_u32_ok (le4 (N.of_nat R)) b4 b5 b6 b7 tail). cbn [bind].
  set (hd := le4 (N.of_nat R) ++ le4 (N.of_nat C)).
  replace (le4 (N.of_nat R) ++ le4 (N.of_nat C) ++ tail) with (hd ++ tail) by (symmetry; apply app_assoc).
  set (ch := fun k => if bitat A (k / C) (k mod C) then 49%N else 48%N).
  apply wp_bind.
  apply wp_for_up with (I := fun i (st : list N * nat) => snd st = 8 + i * C /\ exists t, fst st = hd ++ t /\ length t = R * C /\
     forall k, k < i * C -> nth k t 0%N = ch k).
  - lia.
  - split; [reflexivity|]. exists tail. split; [reflexivity|]. split; [exact HT|intros; lia].
  - intros i st _ Hi (S1 & t & S2 & S3 & S4).
    apply wp_for_up with (I := fun j (st : list N * nat) => snd st = 8 + (i * C + j) /\ exists t, fst st = hd ++ t /\ length t = R * C /\
     forall k, k < i * C + j -> nth k t 0%N = ch k).
    + lia.
    + split; [lia|]. exists t. split; [exact S2|]. split; [exact S3|]. intros k Hk. apply S4. lia.
    + clear st S1 t S2 S3 S4. intros j [buf iter] _ Hj (S1 & t & S2 & S3 & S4). cbn [fst snd] in S1, S2. subst buf iter.
      apply wp_bind, (wp_get R C); auto. assert (L := idx_lt R C i j Hi Hj).
      change 8 with (length hd). rewrite aset_app by lia. cbn [bind]. apply wp_ok. cbn [fst snd]. split; [lia|].
      exists (upd t (i * C + j) (if Z.eqb (Z.b2z (bitat A i j)) 0 then 48 else 49)%N). split; [reflexivity|]. split; [rewrite length_upd; exact S3|].
      intros k Hk. rewrite nth_upd by lia. destruct (Nat.eqb_spec k (i * C + j)) as [->|].
      * unfold ch. destruct (idx_div C i j Hj) as [-> ->]. destruct (bitat A i j); reflexivity.
      * apply S4. lia.
    + intros [buf iter] (S1' & t' & S2' & S3' & S4'). split; [rewrite S1'; lia|]. exists t'. split; [exact S2'|]. split; [exact S3'|].
      intros k Hk. apply S4'. lia.
  - intros [buf iter] (S1 & t & S2 & S3 & S4). cbn [fst snd] in *. apply wp_ok. subst buf. unfold str_of. rewrite app_assoc. fold hd. f_equal.
    apply (list_ext _ 0%N); [rewrite map_length, seq_length; exact S3|]. intros k Hk. rewrite S4 by lia.
    rewrite (nth_indep _ 0%N (ch 0)) by (rewrite map_length, seq_length; lia). rewrite map_nth, seq_nth by lia. reflexivity.
Qed.

(** the representation of a matrix is unique *)
Lemma okm_eq : forall R C A B, okm R C A -> okm R C B -> (forall i j, i < R -> j < C -> bitat A i j = bitat B i j) -> A = B.
Proof.
  intros R C A B (A1 & A2 & A3 & A4) (B1 & B2 & B3 & B4) H. destruct A as [ar ac al], B as [br bc bl]. cbn [mnrows mncols mrows] in *.
  subst ar ac br bc. f_equal. apply (list_ext _ []); [lia|]. intros i Hi. rewrite A3 in Hi.
  destruct (A4 i Hi) as [LA WA]. destruct (B4 i Hi) as [LB WB].
  apply (list_ext _ 0%N); [lia|]. intros k Hk. apply tb_inj. intros b. fold (rw (nth i al []) k). fold (rw (nth i bl []) k).
  destruct (Nat.lt_ge_cases (64 * k + b) C) as [L|L].
  - destruct (Nat.lt_ge_cases b 64) as [L'|L'].
    + specialize (H i (64 * k + b) Hi L). unfold bitat in H. cbn [mrows] in H. rewrite !rowbit_rw in H by exact L'. exact H.
    + destruct (tb (rw (nth i al []) k) b) eqn:E1; [apply WA in E1; lia|]. destruct (tb (rw (nth i bl []) k) b) eqn:E2; [apply WB in E2; lia|reflexivity].
  - destruct (tb (rw (nth i al []) k) b) eqn:E1; [apply WA in E1; lia|]. destruct (tb (rw (nth i bl []) k) b) eqn:E2; [apply WB in E2; lia|reflexivity].
Qed.

Lemma import_ok : forall R C f pre post (Q : mzd -> Prop), (N.of_nat R < 2 ^ 31)%N -> (N.of_nat C < 2 ^ 31)%N ->
  (forall M, okm R C M -> (forall i j, i < R -> j < C -> bitat M i j = f i j) -> Q M) ->
  wp (ImportMatGf2FromStr (pre ++ str_of R C f ++ post) (length pre)) Q.
Proof.
  intros R C f pre post Q HR HC HQ. unfold ImportMatGf2FromStr.
  assert (X : forall x, (x < 2 ^ 31)%N -> (x < 2 ^ 32)%N) by (intros x Hx; eapply N.lt_trans; [exact Hx|reflexivity]).
  set (body := map (fun k => if f (k / C) (k mod C) then 49%N else 48%N) (seq 0 (R * C))).
  assert (E : pre ++ str_of R C f ++ post = pre ++ le4 (N.of_nat R) ++ le4 (N.of_nat C) ++ body ++ post)
    by (unfold str_of; fold body; rewrite <- !app_assoc; reflexivity).
  rewrite E. clear E. rewrite get_u32_ok by (apply X; exact HR). cbn [bind].
  replace (length pre + 4) with (length (pre ++ le4 (N.of_nat R))) by (rewrite app_length; reflexivity).
  rewrite (app_assoc pre). rewrite get_u32_ok by (apply X; exact HC). cbn [bind]. unfold int_of_u32.
  rewrite (proj2 (N.ltb_lt _ _) HR), (proj2 (N.ltb_lt _ _) HC). cbn [bind]. rewrite !Nat2N.id.
  rewrite (app_assoc (pre ++ le4 (N.of_nat R))). set (pre2 := (pre ++ le4 (N.of_nat R)) ++ le4 (N.of_nat C)).
  replace (length pre + 8) with (length pre2) by (unfold pre2; rewrite !app_length; cbn [le4 length]; lia).
  assert (HB : length body = R * C) by (unfold body; rewrite map_length, seq_length; reflexivity).
  unfold mzd_from_str. apply wp_bind.
  apply wp_for_up with (I := fun i (st : mzd * nat) => okm R C (fst st) /\ snd st = i * C /\
     forall a b, a < i -> b < C -> bitat (fst st) a b = f a b).
  - lia.
  - cbn [fst snd]. split; [apply init_ok|]. split; [reflexivity|intros; lia].
  - intros i st _ Hi (S1 & S2 & S3).
    apply wp_for_up with (I := fun j (st : mzd * nat) => okm R C (fst st) /\ snd st = i * C + j /\
     forall a b, a < i \/ (a = i /\ b < j) -> b < C -> bitat (fst st) a b = f a b).
    + lia.
    + split; [exact S1|]. split; [lia|]. intros a b [H|H] Hb; [apply S3; assumption|lia].
    + clear st S1 S2 S3. intros j [A idx] _ Hj (S1 & S2 & S3). cbn [fst snd] in *. subst idx.
      assert (L := idx_lt R C i j Hi Hj). rewrite aget_app. apply wp_bind, (wp_aget _ _ _ 0%N); [rewrite app_length; lia|].
      rewrite app_nth1 by lia. unfold body.
      rewrite (nth_indep _ 0%N ((fun k => if f (k / C) (k mod C) then 49%N else 48%N) 0)) by (rewrite map_length, seq_length; lia).
      rewrite (map_nth (fun k => if f (k / C) (k mod C) then 49%N else 48%N)), seq_nth by lia. cbn [Nat.add]. destruct (idx_div C i j Hj) as [-> ->].
      replace (if N.eqb (if f i j then 49 else 48) 49 then 1%Z else 0%Z) with (if f i j then 1%Z else 0%Z) by (destruct (f i j); reflexivity).
      apply wp_bind. apply (wp_write_bit R C); auto. intros M' HM' HE. apply wp_ok. cbn [fst snd]. split; [exact HM'|]. split; [lia|].
      intros a b H Hb. rewrite HE. destruct (Nat.eqb_spec a i), (Nat.eqb_spec b j); cbn [andb]; try (apply S3; [lia|exact Hb]). subst. reflexivity.
    + intros [A idx] (T1 & T2 & T3). cbn [fst snd] in *. split; [exact T1|]. split; [lia|]. intros a b Ha Hb. apply T3; [lia|exact Hb].
  - intros [A idx] (S1 & _ & S3). cbn [fst snd] in *. apply wp_ok, HQ; [exact S1|]. intros i j Hi Hj. apply S3; assumption.
Qed.

(** importing an exported matrix gives the matrix *)
Lemma import_eq : forall R C A pre post, okm R C A -> (N.of_nat R < 2 ^ 31)%N -> (N.of_nat C < 2 ^ 31)%N ->
  ImportMatGf2FromStr (pre ++ str_of R C (bitat A) ++ post) (length pre) = Ok A.
Proof.
  intros R C A pre post HA HR HC.
  assert (H : wp (ImportMatGf2FromStr (pre ++ str_of R C (bitat A) ++ post) (length pre)) (fun M => M = A)).
  { apply import_ok; auto. intros M HM E. apply (okm_eq R C); auto. }
  destruct (wp_exists _ _ _ H) as (y & E & ->). exact E.
Qed.

(** ** Affine maps *)

Lemma memcpy_app : forall pre mid post src n, length src = n -> length mid = n ->
  memcpy_to (pre ++ mid ++ post) (length pre) src n = Ok (pre ++ src ++ post).
Proof.
  intros pre mid post src n HS HM.
  assert (H : wp (memcpy_to (pre ++ mid ++ post) (length pre) src n) (fun d => d = pre ++ src ++ post));
    [|destruct (wp_exists _ _ _ H) as (y & E & ->); exact E].
  unfold memcpy_to. apply wp_for_up with (I := fun k d => exists t, d = pre ++ t ++ post /\ length t = n /\ forall i, i < k -> nth i t 0%N = nth i src 0%N).
  - lia.
  - exists mid. split; [reflexivity|]. split; [exact HM|intros; lia].
  - intros k d _ Hk (t & -> & L & H). apply wp_bind, (wp_aget _ _ _ 0%N); [lia|]. rewrite aset_app by (rewrite app_length; lia). apply wp_ok.
    exists (upd t k (nth k src 0%N)). split; [|split; [rewrite length_upd; exact L|]].
    + f_equal. generalize (nth k src 0%N). intros x. clear -L Hk. revert k n L Hk. induction t as [|y t IH]; intros k n L Hk; cbn [length] in L; [lia|].
      destruct k; [reflexivity|]. cbn [app upd]. f_equal. apply (IH k (n - 1)); lia.
    + intros i Hi. rewrite nth_upd by lia. destruct (Nat.eqb_spec i k) as [->|]; [reflexivity|apply H; lia].
  - intros d (t & -> & L & H). do 2 f_equal. apply (list_ext _ 0%N); [lia|]. intros i Hi. apply H. lia.
Qed.
Lemma str_size_ok : forall R C f pre post, (8 + N.of_nat R * N.of_nat C < 2 ^ 31)%N -> (N.of_nat R < 2 ^ 31)%N -> (N.of_nat C < 2 ^ 31)%N ->
  str_size (pre ++ str_of R C f ++ post) (length pre) = Ok (R * C).
Proof.
  intros R C f pre post HS HR HC. unfold str_size, str_of. rewrite <- !app_assoc.
  assert (X : forall x, (x < 2 ^ 31)%N -> (x < 2 ^ 32)%N) by (intros x Hx; eapply N.lt_trans; [exact Hx|reflexivity]).
  rewrite get_u32_ok by (apply X; exact HR). cbn [bind].
  replace (length pre + 4) with (length (pre ++ le4 (N.of_nat R))) by (rewrite app_length; reflexivity).
  rewrite (app_assoc pre). rewrite get_u32_ok by (apply X; exact HC). cbn [bind]. unfold int_of_u32.
  assert (Y : (N.of_nat R * N.of_nat C < 2 ^ 31)%N) by (eapply N.le_lt_trans; [|exact HS]; lia).
  rewrite N.mod_small by (apply X; exact Y). rewrite (proj2 (N.ltb_lt _ _) Y). f_equal. lia.
Qed.

(** dimensions for which the sizes are ints *)
Definition exportable (n : nat) : Prop := (8 + N.of_nat n * N.of_nat n < 2 ^ 31)%N.
Lemma exportable_dims : forall n, exportable n -> (N.of_nat n < 2 ^ 31)%N /\ (8 + N.of_nat n * N.of_nat 1 < 2 ^ 31)%N.
Proof.
  intros n H. unfold exportable in H. change (2 ^ 31)%N with 2147483648%N in *. destruct n as [|n]; [split; reflexivity|].
  assert (N.of_nat (S n) * 1 <= N.of_nat (S n) * N.of_nat (S n))%N by (apply N.mul_le_mono_l; lia). split; lia.
Qed.
Lemma export_aff_ok : forall e n f, okaff n f -> exportable n -> ExportAffineToStr e f = Ok (str_aff n f).
Proof.
  intros e n f [HA HV] HE. destruct (exportable_dims n HE) as [D1 D2]. unfold ExportAffineToStr.
  rewrite (export_ok e n n) by assumption. cbn [bind]. rewrite (export_ok e n 1) by assumption. cbn [bind].
  set (a := str_of n n (bitat (alin f))). set (b := str_of n 1 (bitat (atrans f))).
  assert (Ea : str_size a 0 = Ok (n * n)).
  { assert (H := str_size_ok n n (bitat (alin f)) [] [] HE D1 D1). cbn [app length] in H. rewrite app_nil_r in H. exact H. }
  assert (Eb : str_size b 0 = Ok (n * 1)).
  { assert (H := str_size_ok n 1 (bitat (atrans f)) [] [] D2 D1 ltac:(reflexivity)). cbn [app length] in H. rewrite app_nil_r in H. exact H. }
  rewrite Ea, Eb. cbn [bind]. cbv zeta.
  assert (HL := malloc_len e (20 + n * n + n * 1)). set (buf := malloc e (20 + n * n + n * 1)) in *.
  assert (La : length a = 8 + n * n) by apply length_str. assert (Lb : length b = 8 + n * 1) by apply length_str.
  destruct buf as [|b0 [|b1 [|b2 [|b3 tail]]]]; cbn [length] in HL; try lia.
  rewrite (put_u32_ok [] b0 b1 b2 b3 tail). cbn [bind app].
  assert (HT : length tail = (8 + n * n) + (8 + n * 1)) by lia.
  rewrite <- (firstn_skipn (8 + n * n) tail).
  assert (L1 : length (firstn (8 + n * n) tail) = 8 + n * n) by (apply firstn_length_le; lia).
  assert (L2 : length (skipn (8 + n * n) tail) = 8 + n * 1) by (rewrite skipn_length; lia).
  set (m1 := firstn (8 + n * n) tail) in *. set (m2 := skipn (8 + n * n) tail) in *.
  set (hd := le4 (N.of_nat (20 + n * n + n * 1) mod 2 ^ 32)).
  change 4 with (length hd) at 1. rewrite memcpy_app by lia. cbn [bind].
  replace (4 + n * n + 8) with (length (hd ++ a)) by (rewrite app_length, La; change (length hd) with 4; lia).
  rewrite (app_assoc hd). rewrite <- (app_nil_r m2). rewrite memcpy_app by lia. f_equal. rewrite app_nil_r, <- app_assoc. unfold str_aff. fold a b. f_equal.
  unfold hd. f_equal. rewrite Nat.mul_1_r. rewrite N.mod_small.
  - rewrite !Nat2N.inj_add. reflexivity.
  - unfold exportable in HE. rewrite !Nat2N.inj_add, Nat2N.inj_mul. change (2 ^ 32)%N with 4294967296%N. change (2 ^ 31)%N with 2147483648%N in *.
    assert (N.of_nat n < 65536)%N; [|lia].
    destruct (N.lt_ge_cases (N.of_nat n) 65536) as [L|L]; [exact L|]. assert (65536 * 65536 <= N.of_nat n * N.of_nat n)%N by (apply N.mul_le_mono; exact L). lia.
Qed.
Lemma import_aff_ok : forall n f post, okaff n f -> exportable n -> ImportAffineFromStr (str_aff n f ++ post) = Ok f.
Proof.
  intros n f post [HA HV] HE. destruct (exportable_dims n HE) as [D1 D2]. unfold ImportAffineFromStr, str_aff. rewrite <- !app_assoc.
  set (hd := le4 (20 + N.of_nat (n * n) + N.of_nat n)). change 4 with (length hd) at 1 2.
  rewrite import_eq by assumption. cbn [bind]. rewrite str_size_ok by assumption. cbn [bind].
  replace (4 + n * n + 8) with (length (hd ++ str_of n n (bitat (alin f)))) by (rewrite app_length, length_str; change (length hd) with 4; lia).
  rewrite (app_assoc hd). rewrite import_eq by (assumption || reflexivity). cbn [bind]. destruct f; reflexivity.
Qed.
