(** The white-box tables of test/WBSM4/M4RI compute SM4. *)
From Coq Require Import Arith NArith ZArith List Bool Lia ZifyNat Setoid Morphisms.
From Verif Require Import Base Spec LinAlg ModelSM4 SpecSM4 SM4 WBSM4.
From Verif Require Import ModelM4ri SpecM4ri M4ri1 M4ri2 M4ri8 ModelM4ri2 SpecM4ri2 M4ri18 ModelGf2 SpecGf2 Gf2a Gf2b Gf2c ModelSM4M.
Import ListNotations.
Local Open Scope nat_scope.

(** ** Block diagonal matrices *)

Lemma bd_top : forall n m f g x i, i < n -> fapp (n + m) (block_diag n f g) x i = fapp n f x i.
Proof.
  intros n m f g x i Hi. unfold fapp. rewrite xsum_add. unfold block_diag.
  destruct (Nat.ltb_spec i n); [|lia].
  rewrite (xsum_ext n _ (fun k => f i k && x k)) by (intros k Hk; destruct (Nat.ltb_spec k n); [reflexivity|lia]).
  rewrite (xsum_false m) by (intros k Hk; destruct (Nat.ltb_spec (n + k) n); [lia|reflexivity]). apply xorb_false_r.
Qed.
Lemma bd_bot : forall n m f g x i, i < m ->
  fapp (n + m) (block_diag n f g) x (n + i) = fapp m g (fun k => x (n + k)) i.
Proof.
  intros n m f g x i Hi. unfold fapp. rewrite xsum_add. unfold block_diag.
  destruct (Nat.ltb_spec (n + i) n); [lia|].
  rewrite (xsum_false n) by (intros k Hk; destruct (Nat.ltb_spec k n); [reflexivity|lia]). rewrite xorb_false_l.
  apply xsum_ext. intros k Hk. destruct (Nat.ltb_spec (n + k) n); [lia|]. cbn [negb andb].
  replace (n + i - n) with i by lia. replace (n + k - n) with k by lia. reflexivity.
Qed.
Lemma bd_ext : forall n m f f' g g', feq n f f' -> feq m g g' -> feq (n + m) (block_diag n f g) (block_diag n f' g').
Proof.
  intros n m f f' g g' Hf Hg i j Hi Hj. unfold block_diag. destruct (Nat.ltb_spec i n), (Nat.ltb_spec j n); cbn [andb negb]; auto.
  apply Hg; lia.
Qed.
Lemma bd_mul : forall n m f g f' g',
  feq (n + m) (fmul (n + m) (block_diag n f g) (block_diag n f' g')) (block_diag n (fmul n f f') (fmul m g g')).
Proof.
  intros n m f g f' g' i j Hi Hj.
  change (fapp (n + m) (block_diag n f g) (fun k => block_diag n f' g' k j) i = block_diag n (fmul n f f') (fmul m g g') i j).
  destruct (Nat.lt_ge_cases i n) as [L|L].
  - rewrite bd_top by exact L. unfold fapp, block_diag, fmul. destruct (Nat.ltb_spec i n); [|lia].
    destruct (Nat.ltb_spec j n); cbn [andb].
    + apply xsum_ext. intros k Hk. destruct (Nat.ltb_spec k n); [reflexivity|lia].
    + apply xsum_false. intros k Hk. destruct (Nat.ltb_spec k n); [apply andb_false_r|lia].
  - replace i with (n + (i - n)) at 1 by lia. rewrite bd_bot by lia. unfold fapp, block_diag, fmul.
    destruct (Nat.ltb_spec i n); [lia|]. destruct (Nat.ltb_spec j n); cbn [andb negb].
    + apply xsum_false. intros k Hk. destruct (Nat.ltb_spec (n + k) n); [lia|apply andb_false_r].
    + apply xsum_ext. intros k Hk. destruct (Nat.ltb_spec (n + k) n); [lia|]. cbn [andb negb].
      replace (n + k - n) with k by lia. reflexivity.
Qed.
Lemma bd_id : forall n m, feq (n + m) (block_diag n fid fid) fid.
Proof.
  intros n m i j Hi Hj. unfold block_diag, fid.
  destruct (Nat.ltb_spec i n), (Nat.ltb_spec j n); cbn [andb negb]; try reflexivity;
    repeat match goal with |- context [Nat.eqb ?a ?b] => destruct (Nat.eqb_spec a b) end; try lia; reflexivity.
Qed.
Lemma bd_invertible : forall n m f g, invertible n f -> invertible m g -> invertible (n + m) (block_diag n f g).
Proof.
  intros n m f g [f' [F1 F2]] [g' [G1 G2]]. exists (block_diag n f' g'). split.
  - rewrite bd_mul. rewrite <- bd_id. apply bd_ext; assumption.
  - rewrite bd_mul. rewrite <- bd_id. apply bd_ext; assumption.
Qed.

(** ** Affine maps on numbers *)

Lemma an_lt : forall n f x, (affine_n n f x < 2 ^ N.of_nat n)%N.
Proof. intros. apply num_lt. Qed.
Lemma an_bits : forall n f x, veq n (bits n (affine_n n f x)) (affine_f n (bitat (alin f)) (col0 (atrans f)) (bits n x)).
Proof. intros. apply bits_num. Qed.

Definition pairM (n : nat) (f g : afft) : Prop :=
  okaff n f /\ okaff n g /\ invertible n (bitat (alin f)) /\
  (forall x, (x < 2 ^ N.of_nat n)%N -> affine_n n g (affine_n n f x) = x) /\
  (forall x, (x < 2 ^ N.of_nat n)%N -> affine_n n f (affine_n n g x) = x).

Lemma an_inv : forall n f g, (forall x, veq n (affine_f n (bitat (alin g)) (col0 (atrans g))
    (affine_f n (bitat (alin f)) (col0 (atrans f)) x)) x) ->
  forall x, (x < 2 ^ N.of_nat n)%N -> affine_n n g (affine_n n f x) = x.
Proof.
  intros n f g H x Hx. apply (bits_ext n); [apply an_lt|exact Hx|]. rewrite an_bits.
  rewrite (affine_f_ext n (bitat (alin g)) (bitat (alin g)) (col0 (atrans g)) (col0 (atrans g)) _ _ (reflexivity _) (reflexivity _) (an_bits n f x)).
  apply H.
Qed.
Lemma wp_gen_pair : forall n e fuel s, env_ok e -> 0 < n -> vsmall n ->
  wp (GenRandomAffineTransform fuel e n s) (fun o => match o with Some (f, g, s') => pairM n f g | None => True end).
Proof.
  intros n e fuel s HE Hn HS. eapply wp_mono; [apply wp_gen_affine; assumption|]. intros [[[f g] s']|]; [|auto].
  intros (H1 & H2 & H3 & t & _ & [Hi _] & Hd & _). split; [exact H1|]. split; [exact H2|]. split.
  - apply (invertible_ext n _ _ (symmetry Hd) Hi).
  - split; apply an_inv; intros x; apply H3.
Qed.

(** composition *)
Lemma an_comp : forall n f g h, feq n (bitat (alin h)) (fmul n (bitat (alin f)) (bitat (alin g))) ->
  veq n (col0 (atrans h)) (vadd (fapp n (bitat (alin f)) (col0 (atrans g))) (col0 (atrans f))) ->
  forall x, affine_n n h x = affine_n n f (affine_n n g x).
Proof.
  intros n f g h HL HV x. apply (bits_ext n); try apply an_lt. rewrite !an_bits.
  rewrite (affine_f_ext n _ _ _ _ _ _ HL HV (reflexivity _)).
  rewrite (affine_f_ext n _ _ _ _ _ _ (reflexivity _) (reflexivity _) (an_bits n g x)).
  unfold affine_f. rewrite fapp_vadd, fmul_fapp. intros i _. unfold vadd. rewrite xorb_assoc. reflexivity.
Qed.
Lemma bits_lxor_v : forall n x y, veq n (bits n (N.lxor x y)) (vadd (bits n x) (bits n y)).
Proof. intros n x y i _. apply bits_lxor. Qed.
Lemma lxor_lt : forall n x y, (x < 2 ^ N.of_nat n)%N -> (y < 2 ^ N.of_nat n)%N -> (N.lxor x y < 2 ^ N.of_nat n)%N.
Proof.
  intros n x y Hx Hy. apply tb_lt. intros b Hb. rewrite tb_lxor. rewrite (proj1 (tb_lt x n) Hx b Hb), (proj1 (tb_lt y n) Hy b Hb).
  reflexivity.
Qed.
Lemma an_xor : forall n f x y, affine_n n f (N.lxor x y) = N.lxor (N.lxor (affine_n n f x) (affine_n n f y)) (num n (col0 (atrans f))).
Proof.
  intros n f x y. apply (bits_ext n); [apply an_lt|repeat apply lxor_lt; try apply an_lt; apply num_lt|].
  intros i Hi. rewrite !bits_lxor. rewrite bits_num by exact Hi. rewrite !an_bits by exact Hi. unfold affine_f, vadd.
  rewrite (fapp_proper n _ _ (reflexivity (bitat (alin f))) _ _ (bits_lxor_v n x y) i Hi). rewrite (fapp_vadd n _ _ _ i Hi).
  unfold vadd. destruct (fapp n (bitat (alin f)) (bits n x) i), (fapp n (bitat (alin f)) (bits n y) i), (col0 (atrans f) i); reflexivity.
Qed.
Lemma an_xor3 : forall n f x y z,
  affine_n n f (N.lxor (N.lxor x y) z) = N.lxor (N.lxor (affine_n n f x) (affine_n n f y)) (affine_n n f z).
Proof.
  intros n f x y z. rewrite !an_xor. rewrite !N.lxor_assoc. do 2 f_equal. rewrite N.lxor_comm, N.lxor_assoc, N.lxor_nilpotent.
  apply N.lxor_0_r.
Qed.

(** ** Bytes *)

Lemma bits_bv32 : forall x i, i < 32 -> bits 32 x i = N.testbit x (N.of_nat (31 - i)).
Proof. reflexivity. Qed.
Lemma bits_bv8 : forall x i, i < 8 -> bits 8 x i = N.testbit x (N.of_nat (7 - i)).
Proof. reflexivity. Qed.
Lemma bits_byte : forall x q c, q < 4 -> c < 8 -> bits 8 (byte x (N.of_nat (3 - q))) c = bits 32 x (8 * q + c).
Proof.
  intros x q c Hq Hc. rewrite bits_bv8, bits_bv32 by lia. rewrite byte_bits.
  destruct (N.ltb_spec (N.of_nat (7 - c)) 8); [|lia]. rewrite andb_true_r. f_equal. lia.
Qed.
Lemma bits_word : forall b0 b1 b2 b3 q c, (b0 < 256)%N -> (b1 < 256)%N -> (b2 < 256)%N -> (b3 < 256)%N ->
  q < 4 -> c < 8 -> bits 32 (word_of b0 b1 b2 b3) (8 * q + c) = bits 8 (nth q [b0; b1; b2; b3] 0%N) c.
Proof.
  intros b0 b1 b2 b3 q c H0 H1 H2 H3 Hq Hc. rewrite <- bits_byte by auto.
  destruct (byte_word b0 b1 b2 b3 H0 H1 H2 H3) as (E3 & E2 & E1 & E0).
  do 4 (destruct q as [|q]; [cbn [nth Nat.sub]; f_equal; assumption|]). lia.
Qed.
Lemma word_bytes : forall x, (x < 2 ^ 32)%N -> word_of (byte x 3) (byte x 2) (byte x 1) (byte x 0) = x.
Proof.
  intros x Hx. apply (bits_ext 32); [apply word_bound; apply byte_bound|exact Hx|]. intros i Hi.
  assert (D : i = 8 * (i / 8) + i mod 8) by (apply Nat.div_mod; lia).
  assert (Q : i / 8 < 4) by (apply Nat.div_lt_upper_bound; lia).
  assert (M : i mod 8 < 8) by (apply Nat.mod_upper_bound; lia).
  rewrite D. rewrite bits_word by (auto; apply byte_bound). rewrite <- bits_byte by auto.
  generalize dependent (i / 8). intros q _ Hq. do 4 (destruct q as [|q]; [reflexivity|]). lia.
Qed.

(** the map joined from four maps of dimension 8 *)
Definition diag4 (A0 A1 A2 A3 : fmat) : fmat := block_diag 24 (block_diag 16 (block_diag 8 A0 A1) A2) A3.
Lemma diag4_app : forall (A : nat -> fmat) x q c, q < 4 -> c < 8 ->
  fapp 32 (diag4 (A 0) (A 1) (A 2) (A 3)) x (8 * q + c) = fapp 8 (A q) (fun k => x (8 * q + k)) c.
Proof.
  intros A x q c Hq Hc. unfold diag4.
  destruct (Nat.eq_dec q 3) as [->|].
  { apply (bd_bot 24 8). exact Hc. }
  change 32 with (24 + 8) at 1. rewrite bd_top by lia.
  destruct (Nat.eq_dec q 2) as [->|].
  { apply (bd_bot 16 8). exact Hc. }
  change 24 with (16 + 8) at 1. rewrite bd_top by lia.
  destruct (Nat.eq_dec q 1) as [->|].
  { apply (bd_bot 8 8). exact Hc. }
  assert (q = 0) by lia. subst q. change 16 with (8 + 8) at 1. rewrite bd_top by lia. reflexivity.
Qed.
Lemma diag4_invertible : forall A0 A1 A2 A3, invertible 8 A0 -> invertible 8 A1 -> invertible 8 A2 -> invertible 8 A3 ->
  invertible 32 (diag4 A0 A1 A2 A3).
Proof.
  intros. unfold diag4. apply (bd_invertible 24 8); [apply (bd_invertible 16 8); [apply (bd_invertible 8 8)|]|]; assumption.
Qed.

(** [f] acts on the bytes as [d 0] to [d 3] *)
Lemma join_action : forall f (d : nat -> afft),
  feq 32 (bitat (alin f)) (diag4 (bitat (alin (d 0))) (bitat (alin (d 1))) (bitat (alin (d 2))) (bitat (alin (d 3)))) ->
  (forall q c, q < 4 -> c < 8 -> col0 (atrans f) (8 * q + c) = col0 (atrans (d q)) c) ->
  forall b0 b1 b2 b3, (b0 < 256)%N -> (b1 < 256)%N -> (b2 < 256)%N -> (b3 < 256)%N ->
  affine_n 32 f (word_of b0 b1 b2 b3) =
  word_of (affine_n 8 (d 0) b0) (affine_n 8 (d 1) b1) (affine_n 8 (d 2) b2) (affine_n 8 (d 3) b3).
Proof.
  intros f d HL HV b0 b1 b2 b3 H0 H1 H2 H3.
  assert (B : forall q b, (affine_n 8 (d q) b < 256)%N) by (intros; apply (an_lt 8)).
  apply (bits_ext 32); [apply an_lt|apply word_bound; apply B|].
  rewrite an_bits. intros i Hi.
  assert (D : i = 8 * (i / 8) + i mod 8) by (apply Nat.div_mod; lia).
  assert (Q : i / 8 < 4) by (apply Nat.div_lt_upper_bound; lia).
  assert (M : i mod 8 < 8) by (apply Nat.mod_upper_bound; lia).
  set (q := i / 8) in *. set (c := i mod 8) in *. clearbody q c. subst i.
  rewrite (affine_f_ext 32 _ _ _ _ _ _ HL (reflexivity _) (reflexivity _) _ Hi). unfold affine_f, vadd.
  rewrite (diag4_app (fun k => bitat (alin (d k)))) by assumption. rewrite HV by assumption.
  rewrite bits_word by (auto; apply B).
  assert (E : nth q [affine_n 8 (d 0) b0; affine_n 8 (d 1) b1; affine_n 8 (d 2) b2; affine_n 8 (d 3) b3] 0%N =
              affine_n 8 (d q) (nth q [b0; b1; b2; b3] 0%N)).
  { do 4 (destruct q as [|q]; [reflexivity|]). lia. }
  rewrite E. rewrite an_bits by exact M. unfold affine_f, vadd. f_equal.
  apply fapp_proper; [reflexivity| |exact M]. intros k Hk. apply bits_word; assumption.
Qed.

(** ** The random maps *)

Definition nafft : afft := mkafft (mzd_init 0 0) (mzd_init 0 0).
Definition eg (E : list (list (list afft))) (i d k : nat) : afft := at3 nafft E i d k.

Record mrow_good (P : list (list afft)) (E : list (list (list afft))) (Q : list (list afft)) (r : nat) : Prop :=
  { mg_P : pairM 32 (at2 nafft P r 0) (at2 nafft P r 1);
    mg_E : forall j, j < 4 -> pairM 8 (eg E r j 0) (eg E r j 1);
    mg_EC : okaff 32 (eg E r 4 1);
    mg_ECa : forall x, (x < 2 ^ 32)%N -> affine_n 32 (eg E r 4 1) x =
      word_of (affine_n 8 (eg E r 0 1) (byte x 3)) (affine_n 8 (eg E r 1 1) (byte x 2))
              (affine_n 8 (eg E r 2 1) (byte x 1)) (affine_n 8 (eg E r 3 1) (byte x 0));
    mg_Q : pairM 32 (at2 nafft Q r 0) (at2 nafft Q r 1) }.

Definition mglob_dims (g : mglob) : Prop :=
  dims2 36 2 (hP g) /\ dims3 36 5 2 (hE g) /\ dims2 36 2 (hQ g).

Ltac w2 n m := apply wp_bind; apply (wp_set2 _ nafft n m); [assumption|lia|lia|].
Ltac w3 n m l := apply wp_bind; apply (wp_set3 _ nafft n m l); [assumption|lia|lia|lia|].
Ltac g2 n m := apply wp_bind; apply (wp_get2 _ nafft n m); [assumption|lia|lia|].
Ltac g3 n m l := apply wp_bind; apply (wp_get3 _ nafft n m l); [assumption|lia|lia|lia|].

Lemma gen_E_wp : forall fuel e i E s, env_ok e -> i < 36 -> dims3 36 5 2 E ->
  wp (m_gen_E fuel e i E s) (fun o => match o with
    | None => True
    | Some (E', s') => dims3 36 5 2 E' /\ (forall r j k, r <> i -> eg E' r j k = eg E r j k) /\
        forall j, j < 4 -> pairM 8 (eg E' i j 0) (eg E' i j 1)
    end).
Proof.
  intros fuel e i E s HE Hi DE. unfold m_gen_E.
  apply wp_for_up with (I := fun n (o : option (list (list (list afft)) * nat)) => match o with
    | None => True
    | Some (E', s') => dims3 36 5 2 E' /\ (forall r j k, r <> i -> eg E' r j k = eg E r j k) /\
        forall j, j < n -> pairM 8 (eg E' i j 0) (eg E' i j 1)
    end).
  - lia.
  - split; [exact DE|]. split; [reflexivity|]. intros; lia.
  - intros j o _ Hj Ho. destruct o as [[E1 s1]|]; [|apply wp_ok; exact I]. destruct Ho as (D1 & F1 & G1).
    apply wp_bind. eapply wp_mono; [apply (wp_gen_pair 8); auto; [lia|apply vsmall_le; lia]|].
    intros [[[f fi] s2]|] Hp; [|apply wp_ok; exact I].
    w3 36 5 2. intros E2 D2 A2 _. w3 36 5 2. intros E3 D3 A3 _. apply wp_ok. split; [exact D3|]. split.
    + intros r j' k Hr. unfold eg. rewrite A3, A2. destruct (Nat.eqb_spec r i); [lia|]. apply F1. exact Hr.
    + intros j' Hj'. unfold eg. rewrite !A3, !A2, !Nat.eqb_refl. cbn [Nat.eqb andb].
      destruct (Nat.eqb_spec j' j) as [->|]; cbn [andb]; [exact Hp|]. apply G1. lia.
  - intros o Ho. exact Ho.
Qed.

Lemma wp_vec_of : forall R f (h : nat -> mzd -> res mzd) (Q : mzd -> Prop),
  (forall j v (Q' : mzd -> Prop), j < R -> okm R 1 v -> (forall v', okm R 1 v' ->
     (forall a b, bitat v' a b = if Nat.eqb a j && Nat.eqb b 0 then f j else bitat v a b) -> Q' v') -> wp (h j v) Q') ->
  (forall v, okm R 1 v -> veq R (col0 v) f -> Q v) ->
  wp (for_up 0 R h (mzd_init R 1)) Q.
Proof.
  intros R f h Q Hh HQ.
  apply wp_for_up with (I := fun j v => okm R 1 v /\ forall a, a < j -> col0 v a = f a).
  - lia.
  - split; [apply init_ok|]. intros; lia.
  - intros j v _ Hj [Hv Ev]. apply Hh; [exact Hj|exact Hv|]. intros v' Hv' Ev'. split; [exact Hv'|]. intros a Ha.
    unfold col0. rewrite Ev'. cbn [Nat.eqb]. rewrite andb_true_r. destruct (Nat.eqb_spec a j) as [->|]; [reflexivity|].
    apply Ev. lia.
  - intros v [Hv Ev]. apply HQ; [exact Hv|]. intros a Ha. apply Ev. exact Ha.
Qed.

Lemma join_E_wp : forall e i E, env_ok e -> i < 36 -> dims3 36 5 2 E ->
  (forall j, j < 4 -> pairM 8 (eg E i j 0) (eg E i j 1)) ->
  wp (m_join_E e i E) (fun E' => dims3 36 5 2 E' /\ (forall r j k, r <> i -> eg E' r j k = eg E r j k) /\
    (forall j k, j < 4 -> eg E' i j k = eg E i j k) /\ okaff 32 (eg E' i 4 1) /\
    forall x, (x < 2 ^ 32)%N -> affine_n 32 (eg E' i 4 1) x =
      word_of (affine_n 8 (eg E i 0 1) (byte x 3)) (affine_n 8 (eg E i 1 1) (byte x 2))
              (affine_n 8 (eg E i 2 1) (byte x 1)) (affine_n 8 (eg E i 3 1) (byte x 0))).
Proof.
  intros e i E HE Hi DE HP. unfold m_join_E.
  assert (HL : forall j, j < 4 -> okm 8 8 (alin (eg E i j 0))) by (intros j Hj; apply (HP j Hj)).
  assert (HV : forall j, j < 4 -> okm 8 1 (atrans (eg E i j 0))) by (intros j Hj; apply (HP j Hj)).
  assert (HI : forall j, j < 4 -> invertible 8 (bitat (alin (eg E i j 0)))) by (intros j Hj; apply (HP j Hj)).
  g3 36 5 2. g3 36 5 2. fold (eg E i 0 0) (eg E i 1 0).
  apply wp_bind. apply (wp_diag 8 8 8 8); [apply HL; lia|apply HL; lia|lia|lia|]. intros T HT FT.
  g3 36 5 2. fold (eg E i 2 0). apply wp_bind. apply (wp_diag 16 16 8 8); [exact HT|apply HL; lia|lia|lia|]. intros S HS FS.
  g3 36 5 2. fold (eg E i 3 0). apply wp_bind. apply (wp_diag 24 24 8 8); [exact HS|apply HL; lia|lia|lia|]. intros L HL4 FL.
  assert (FD : feq 32 (bitat L) (diag4 (bitat (alin (eg E i 0 0))) (bitat (alin (eg E i 1 0))) (bitat (alin (eg E i 2 0))) (bitat (alin (eg E i 3 0))))).
  { intros a b Ha Hb. rewrite FL by assumption. unfold diag4. apply (bd_ext 24 8); try assumption; [|reflexivity].
    intros a' b' Ha' Hb'. rewrite FS by assumption. apply (bd_ext 16 8); try assumption. reflexivity. }
  assert (IL : invertible 32 (bitat L)).
  { apply (invertible_ext 32 _ _ (symmetry FD)). apply diag4_invertible; apply HI; lia. }
  apply wp_bind. unfold GenMatGf2Inv. eapply wp_mono; [apply (wp_inv_m4ri 32); [exact HL4|lia]|].
  intros Li (HLi & _ & _ & HIi). specialize (HIi IL).
  apply wp_bind. apply (wp_vec_of 32 (fun j => col0 (atrans (eg E i (j / 8) 0)) (j mod 8))).
  { intros j v Q' Hj Hv HQ'. assert (j / 8 < 4) by (apply Nat.div_lt_upper_bound; lia).
    assert (j mod 8 < 8) by (apply Nat.mod_upper_bound; lia).
    apply wp_bind; apply (wp_get3 _ nafft 36 5 2); [assumption|lia|lia|lia|]. fold (eg E i (j / 8) 0).
    apply wp_bind. apply (wp_get 8 1); auto.
    apply (wp_set 32 1 v j 0 _ (col0 (atrans (eg E i (j / 8) 0)) (j mod 8))); auto. apply rem_b2z. }
  intros v Hv Ev. apply wp_bind. apply (wp_mulv 32 32); auto; [lia|apply vsmall_le; lia|]. intros w Hw Ew.
  w3 36 5 2. intros E1 D1 A1 _. apply (wp_set3 _ nafft 36 5 2); [assumption|lia|lia|lia|]. intros E2 D2 A2 _.
  split; [exact D2|]. split; [|split; [|split]].
  - intros r j k Hr. unfold eg. rewrite A2, A1. destruct (Nat.eqb_spec r i); [lia|]. reflexivity.
  - intros j k Hj. unfold eg. rewrite A2, A1. destruct (Nat.eqb_spec j 4); [lia|]. cbn [andb]. rewrite !andb_false_r. reflexivity.
  - unfold eg. rewrite A2, !Nat.eqb_refl. cbn [andb]. split; assumption.
  - unfold eg at 1. rewrite A2, !Nat.eqb_refl. cbn [andb].
    intros x Hx. set (h := mkafft Li w). set (h0 := mkafft L v).
    assert (J : forall b0 b1 b2 b3, (b0 < 256)%N -> (b1 < 256)%N -> (b2 < 256)%N -> (b3 < 256)%N ->
      affine_n 32 h0 (word_of b0 b1 b2 b3) = word_of (affine_n 8 (eg E i 0 0) b0) (affine_n 8 (eg E i 1 0) b1)
        (affine_n 8 (eg E i 2 0) b2) (affine_n 8 (eg E i 3 0) b3)).
    { apply (join_action h0 (fun d => eg E i d 0)); [exact FD|]. intros q c Hq Hc. cbn [atrans h0]. rewrite Ev by lia.
      replace ((8 * q + c) / 8) with q by (rewrite Nat.mul_comm, Nat.div_add_l, Nat.div_small; lia).
      replace ((8 * q + c) mod 8) with c by (rewrite Nat.add_comm, Nat.mul_comm, Nat.mod_add, Nat.mod_small; lia). reflexivity. }
    assert (K : forall y, (y < 2 ^ 32)%N -> affine_n 32 h (affine_n 32 h0 y) = y).
    { apply (an_inv 32). intros y. apply (affine_inverse 32 (bitat L) (bitat Li) (col0 v) (col0 w)); [exact HIi|exact Ew]. }
    assert (B8 : forall d y, (affine_n 8 (eg E i d 1) y < 256)%N) by (intros; apply (an_lt 8)).
    assert (PI : forall d y, d < 4 -> (y < 256)%N -> affine_n 8 (eg E i d 0) (affine_n 8 (eg E i d 1) y) = y).
    { intros d y Hd Hy. apply (HP d Hd). exact Hy. }
    rewrite <- (K (word_of (affine_n 8 (eg E i 0 1) (byte x 3)) (affine_n 8 (eg E i 1 1) (byte x 2))
              (affine_n 8 (eg E i 2 1) (byte x 1)) (affine_n 8 (eg E i 3 1) (byte x 0)))) by (apply word_bound; apply B8).
    rewrite J by apply B8. rewrite !PI by (try lia; apply byte_bound). rewrite word_bytes by exact Hx. reflexivity.
Qed.

Lemma gen_row_wp : forall fuel e i g s, env_ok e -> i < 36 -> mglob_dims g ->
  wp (m_gen_row fuel e i g s) (fun o => match o with
    | None => True
    | Some (g', s') => mglob_dims g' /\ hS g' = hS g /\ mrow_good (hP g') (hE g') (hQ g') i /\
        (forall r k, r <> i -> at2 nafft (hP g') r k = at2 nafft (hP g) r k) /\
        (forall r j k, r <> i -> eg (hE g') r j k = eg (hE g) r j k) /\
        (forall r k, r <> i -> at2 nafft (hQ g') r k = at2 nafft (hQ g) r k)
    end).
Proof.
  intros fuel e i g s HE Hi (DP & DE & DQ). unfold m_gen_row.
  apply wp_bind. eapply wp_mono; [apply (wp_gen_pair 32); auto; [lia|apply vsmall_le; lia]|].
  intros [[[p pi] s1]|] Hp; [|apply wp_ok; exact I].
  w2 36 2. intros P1 DP1 AP1 _. w2 36 2. intros P2 DP2 AP2 _.
  apply wp_bind. eapply wp_mono; [apply gen_E_wp; auto|]. intros [[E1 s2]|] HE1; [|apply wp_ok; exact I].
  destruct HE1 as (DE1 & FE1 & GE1).
  apply wp_bind. eapply wp_mono; [apply join_E_wp; auto|]. intros E2 (DE2 & FE2 & GE2 & OE2 & AE2).
  apply wp_bind. eapply wp_mono; [apply (wp_gen_pair 32); auto; [lia|apply vsmall_le; lia]|].
  intros [[[q qi] s3]|] Hq; [|apply wp_ok; exact I].
  w2 36 2. intros Q1 DQ1 AQ1 _. w2 36 2. intros Q2 DQ2 AQ2 _. apply wp_ok. cbn [hP hE hQ hS].
  split; [split; [|split]; assumption|]. split; [reflexivity|]. split; [|split; [|split]].
  - split.
    + rewrite !AP2, !AP1, !Nat.eqb_refl. cbn [Nat.eqb andb]. exact Hp.
    + intros j Hj. rewrite !GE2 by lia. apply GE1. exact Hj.
    + exact OE2.
    + intros x Hx. rewrite (GE2 0), (GE2 1), (GE2 2), (GE2 3) by lia. apply AE2. exact Hx.
    + rewrite !AQ2, !AQ1, !Nat.eqb_refl. cbn [Nat.eqb andb]. exact Hq.
  - intros r k Hr. rewrite AP2, AP1. destruct (Nat.eqb_spec r i); [lia|]. reflexivity.
  - intros r j k Hr. rewrite FE2 by exact Hr. apply FE1. exact Hr.
  - intros r k Hr. rewrite AQ2, AQ1. destruct (Nat.eqb_spec r i); [lia|]. reflexivity.
Qed.

Definition mglob_good (g : mglob) : Prop :=
  mglob_dims g /\ dims3 32 4 256 (hS g) /\ forall r, r < 36 -> mrow_good (hP g) (hE g) (hQ g) r.

Lemma m_gen_affine_wp : forall fuel e g s, env_ok e -> mglob_dims g -> dims3 32 4 256 (hS g) ->
  wp (m_gen_affine fuel e g s) (fun o => match o with None => True | Some (g', s') => mglob_good g' /\ hS g' = hS g end).
Proof.
  intros fuel e g s HE DG DS. unfold m_gen_affine.
  apply wp_for_up with (I := fun i (o : option (mglob * nat)) => match o with
    | None => True
    | Some (g', s') => mglob_dims g' /\ hS g' = hS g /\ forall r, r < i -> mrow_good (hP g') (hE g') (hQ g') r
    end).
  - lia.
  - split; [exact DG|]. split; [reflexivity|]. intros; lia.
  - intros i o _ Hi Ho. destruct o as [[g1 s1]|]; [|apply wp_ok; exact I]. destruct Ho as (D1 & S1 & R1).
    eapply wp_mono; [apply gen_row_wp; auto|]. intros [[g2 s2]|]; [|auto]. intros (D2 & S2 & R2 & F1 & F2 & F3).
    split; [exact D2|]. split; [congruence|]. intros r Hr. destruct (Nat.eq_dec r i) as [->|]; [exact R2|].
    destruct (R1 r ltac:(lia)) as [A1 A2 A3 A4 A5]. split.
    + rewrite !F1 by assumption. exact A1.
    + intros j Hj. rewrite !F2 by assumption. apply A2. exact Hj.
    + rewrite F2 by assumption. exact A3.
    + intros x Hx. rewrite !F2 by assumption. apply A4. exact Hx.
    + rewrite !F3 by assumption. exact A5.
  - intros [[g' s']|]; [|auto]. intros (D & S & R). split; [|exact S]. split; [exact D|]. split; [rewrite S; exact DS|exact R].
Qed.
