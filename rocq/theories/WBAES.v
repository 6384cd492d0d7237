(** The white-box tables of test/WBAES/WBMatrix compute AES-128. *)
From Coq Require Import Arith NArith ZArith List Bool Lia.
From Verif Require Import Base Tables Model Spec LinAlg Mem Cons Parity Trans Mul Rand GenPair Com Affine
  ModelSM4 SpecSM4 SM4 WBSM4 ModelAES SpecAES AES.
Import ListNotations.
Global Opaque aes_sbox gmul.

(** ** Products of a matrix and a number *)

Definition mu (e : endian) (w : width) (m : mat) (x : N) : N :=
  match MatMulNum e w m x with Ok y => y | UB => 0%N end.
Lemma mu_spec : forall e w m x, one w -> wfM w m ->
  MatMulNum e w m x = Ok (mu e w m x) /\ (mu e w m x < 2 ^ N.of_nat (wb w))%N /\
  veq (dim w) (bv w (mu e w m x)) (fapp (dim w) (mbit w m) (bv w x)).
Proof.
  intros e w m x Hw Hm. pose proof (MatMulNum_wp e w m x Hw (wfM_typed w m Hm)) as H.
  apply wp_exists in H. destruct H as (y & E & Wy & Hy). unfold mu. rewrite E. cbv iota.
  split; [reflexivity|]. split; [|exact Hy]. destruct Wy as [_ B]. inversion B; auto.
Qed.
Lemma mu_lxor : forall e w m x y, one w -> wfM w m ->
  mu e w m (N.lxor x y) = N.lxor (mu e w m x) (mu e w m y).
Proof.
  intros e w m x y Hw Hm. destruct (mu_spec e w m x Hw Hm) as (_ & B1 & E1).
  destruct (mu_spec e w m y Hw Hm) as (_ & B2 & E2).
  destruct (mu_spec e w m (N.lxor x y) Hw Hm) as (_ & B3 & E3).
  apply (bv_ext w); auto; [apply lxor_bound; auto|].
  rewrite E3, !bv_lxor, fapp_vadd by auto. intros i Hi. unfold vadd. rewrite E1, E2 by auto. reflexivity.
Qed.
Definition pairM (e : endian) (w : width) (m v : mat) : Prop :=
  wfM w m /\ wfM w v /\
  (forall x, (x < 2 ^ N.of_nat (wb w))%N -> mu e w v (mu e w m x) = x) /\
  (forall x, (x < 2 ^ N.of_nat (wb w))%N -> mu e w m (mu e w v x) = x).
Lemma mu_comp : forall e w m v x, one w -> wfM w m -> wfM w v -> (x < 2 ^ N.of_nat (wb w))%N ->
  feq (dim w) (fmul (dim w) (mbit w v) (mbit w m)) fid -> mu e w v (mu e w m x) = x.
Proof.
  intros e w m v x Hw Hm Hv Hx HI. destruct (mu_spec e w m x Hw Hm) as (_ & B1 & E1).
  destruct (mu_spec e w v (mu e w m x) Hw Hv) as (_ & B2 & E2). apply (bv_ext w); auto.
  rewrite E2, E1, <- fmul_fapp, HI, fapp_id. reflexivity.
Qed.
Lemma pairM_intro : forall e w m v, one w -> wfM w m -> wfM w v -> inverse_of (dim w) (mbit w m) (mbit w v) ->
  pairM e w m v.
Proof.
  intros e w m v Hw Hm Hv [H1 H2]. split; auto. split; auto. split; intros x Hx; apply mu_comp; auto.
Qed.

(** ** Tables with four indices *)

Definition at4 (t : list (list (list (list N)))) (i j k l : nat) : N := at3 0%N (nth i t []) j k l.
Definition dims4 (n m l p : nat) (t : list (list (list (list N)))) : Prop :=
  length t = n /\ forall i, i < n -> dims3 m l p (nth i t []).
Lemma wp_get4 : forall n m l p t i j k q (Q : N -> Prop), dims4 n m l p t -> i < n -> j < m -> k < l -> q < p ->
  Q (at4 t i j k q) -> wp (get4 t i j k q) Q.
Proof.
  intros n m l p t i j k q Q [L H] Hi Hj Hk Hq HQ. unfold get4. apply wp_bind.
  apply wp_aget with (d := []); [lia|]. apply wp_get3 with (d := 0%N) (n := m) (m := l) (l := p); auto.
Qed.
Lemma get4_ok : forall n m l p t i j k q, dims4 n m l p t -> i < n -> j < m -> k < l -> q < p ->
  get4 t i j k q = Ok (at4 t i j k q).
Proof. intros. apply wp_eq. eapply wp_get4; eauto. Qed.
Lemma get3_ok : forall A (d : A) n m l t i j k, dims3 n m l t -> i < n -> j < m -> k < l ->
  get3 t i j k = Ok (at3 d t i j k).
Proof. intros. apply wp_eq. eapply wp_get3; eauto. Qed.
Lemma wp_set4 : forall n m l p t i j k q x (Q : list (list (list (list N))) -> Prop),
  dims4 n m l p t -> i < n -> j < m -> k < l -> q < p ->
  (forall t', dims4 n m l p t' ->
     (forall i' j' k' q', at4 t' i' j' k' q' =
        if (Nat.eqb i' i && (Nat.eqb j' j && (Nat.eqb k' k && Nat.eqb q' q)))%bool then x else at4 t i' j' k' q') -> Q t') ->
  wp (set4 t i j k q x) Q.
Proof.
  intros n m l p t i j k q x Q [L H] Hi Hj Hk Hq HQ. unfold set4. apply wp_bind.
  apply wp_aget with (d := []); [lia|]. apply wp_bind.
  apply wp_set3 with (d := 0%N) (n := m) (m := l) (l := p); auto. intros r' Dr Hr _.
  apply wp_aset; [lia|]. apply HQ.
  - split; [rewrite length_upd; auto|]. intros i' Hi'. rewrite nth_upd by lia.
    destruct (Nat.eqb_spec i' i) as [->|]; auto.
  - intros i' j' k' q'. unfold at4. rewrite nth_upd by lia. destruct (Nat.eqb_spec i' i) as [->|]; cbn [andb]; auto.
Qed.

Definition xor_ok (X : list (list (list (list N)))) : Prop := dims4 9 96 16 16 X /\
  forall i j x y, i < 9 -> j < 96 -> x < 16 -> y < 16 -> at4 X i j x y = N.lxor (N.of_nat x) (N.of_nat y).
Lemma gen_xorTable_wp : forall X, dims4 9 96 16 16 X -> wp (gen_xorTable X) xor_ok.
Proof.
  intros X DX. unfold gen_xorTable.
  set (P := fun X (D : nat -> nat -> nat -> nat -> Prop) => dims4 9 96 16 16 X /\
    forall i j x y, i < 9 -> j < 96 -> x < 16 -> y < 16 -> D i j x y -> at4 X i j x y = N.lxor (N.of_nat x) (N.of_nat y)).
  assert (PM : forall X (D D' : nat -> nat -> nat -> nat -> Prop), P X D ->
    (forall i j x y, i < 9 -> j < 96 -> x < 16 -> y < 16 -> D' i j x y -> D i j x y) -> P X D').
  { intros X0 D D' [? H] HD. split; auto. }
  apply wp_for_up with (I := fun i X => P X (fun i' _ _ _ => i' < i)); [lia|split; auto; intros; lia| |].
  2:{ intros X' [D H]. split; auto. }
  clear X DX. intros i X _ Hi H0.
  apply wp_for_up with (I := fun j X => P X (fun i' j' _ _ => i' < i \/ i' = i /\ j' < j)); [lia| | |].
  { eapply PM; [exact H0|]. cbv beta. intros; lia. } 2:{ intros X' H. eapply PM; [exact H|]. cbv beta. intros; lia. }
  clear X H0. intros j X _ Hj H0.
  apply wp_for_up with (I := fun x X => P X (fun i' j' x' _ => i' < i \/ i' = i /\ (j' < j \/ j' = j /\ x' < x))); [lia| | |].
  { eapply PM; [exact H0|]. cbv beta. intros; lia. } 2:{ intros X' H. eapply PM; [exact H|]. cbv beta. intros; lia. }
  clear X H0. intros x X _ Hx H0.
  apply wp_for_up with (I := fun y X => P X (fun i' j' x' y' =>
    i' < i \/ i' = i /\ (j' < j \/ j' = j /\ (x' < x \/ x' = x /\ y' < y)))); [lia| | |].
  { eapply PM; [exact H0|]. cbv beta. intros; lia. } 2:{ intros X' H. eapply PM; [exact H|]. cbv beta. intros; lia. }
  clear X H0. intros y X _ Hy [D H].
  eapply wp_set4; eauto. intros X' D' H'. split; auto. intros i' j' x' y' Hi' Hj' Hx' Hy' HD. rewrite H'.
  destruct (Nat.eqb_spec i' i) as [->|], (Nat.eqb_spec j' j) as [->|], (Nat.eqb_spec x' x) as [->|], (Nat.eqb_spec y' y) as [->|];
    cbn [andb]; auto; apply H; auto; lia.
Qed.

(** ** The exclusive or by nibbles *)

Definition nib (x s : N) : N := N.land (N.shiftr x s) 15.
Lemma nib_bit : forall x s k, N.testbit (nib x s) k = N.testbit x (k + s) && (k <? 4)%N.
Proof.
  intros x s k. unfold nib. rewrite N.land_spec, N.shiftr_spec by lia. f_equal.
  change 15%N with (N.ones 4). destruct (N.ltb_spec k 4).
  - apply N.ones_spec_low. auto.
  - apply N.ones_spec_high. auto.
Qed.
Lemma nib_bound : forall x s, (nib x s < 16)%N.
Proof. intros. unfold nib. change 15%N with (N.ones 4). rewrite N.land_ones. apply N.mod_lt. discriminate. Qed.
Lemma nib_xor4 : forall a b c d s, N.lxor (N.lxor (nib a s) (nib b s)) (N.lxor (nib c s) (nib d s))
  = nib (N.lxor (N.lxor (N.lxor a b) c) d) s.
Proof.
  intros. apply N.bits_inj. intros k. rewrite !N.lxor_spec, !nib_bit, !N.lxor_spec.
  destruct (k <? 4)%N; rewrite ?andb_true_r, ?andb_false_r; auto.
  destruct (N.testbit a (k + s)), (N.testbit b (k + s)), (N.testbit c (k + s)), (N.testbit d (k + s)); reflexivity.
Qed.
Lemma nib_byte : forall x k, uchar (N.lor (N.shiftl (nib x (8 * k + 4)) 4) (nib x (8 * k))) = byte x k.
Proof.
  intros x k. apply N.bits_inj. intros j. rewrite byte_bits. unfold uchar. change 256%N with (2 ^ 8)%N.
  rewrite mod_bits. destruct (N.ltb_spec j 8) as [Hj|Hj]; rewrite ?andb_true_r, ?andb_false_r; auto.
  rewrite N.lor_spec, nib_bit. destruct (N.lt_ge_cases j 4).
  - rewrite N.shiftl_spec_low by auto. destruct (N.ltb_spec j 4); [|lia]. rewrite andb_true_r. reflexivity.
  - rewrite N.shiftl_spec_high by lia. rewrite nib_bit. destruct (N.ltb_spec j 4); [lia|].
    destruct (N.ltb_spec (j - 4) 4); [|lia]. rewrite andb_true_r, andb_false_r, orb_false_r. f_equal. lia.
Qed.
Lemma xor16 : forall x y, (x < 16)%N -> (y < 16)%N -> (N.lxor x y < 16)%N.
Proof. intros. apply (lxor_bound x y 4%N); auto. Qed.

Lemma get_xor : forall X i j x y, xor_ok X -> i < 9 -> j < 96 -> (x < 16)%N -> (y < 16)%N ->
  get4 X i j (N.to_nat x) (N.to_nat y) = Ok (N.lxor x y).
Proof.
  intros X i j x y [D H] Hi Hj Hx Hy. rewrite (get4_ok 9 96 16 16) by (auto; lia).
  rewrite H by (auto; lia). rewrite !N2Nat.id. reflexivity.
Qed.

(** the bytes of a word, from the left *)
Definition wbyte (x : N) (q : nat) : N := byte x (N.of_nat (3 - q)).
Lemma xor_nibbles_wp : forall X i j a b c d s, xor_ok X -> i < 9 -> j < 4 -> length s = 16 ->
  wp (xor_nibbles X i j a b c d s) (fun s' => length s' = 16 /\
    forall k, k < 16 -> nth k s' 0%N =
      if Nat.eqb (k / 4) j then wbyte (N.lxor (N.lxor (N.lxor a b) c) d) (k mod 4) else nth k s 0%N).
Proof.
  intros X i j a b c d s HX Hi Hj Hs. unfold xor_nibbles.
  eapply wp_mono; [apply fill_wp with (f := wbyte (N.lxor (N.lxor (N.lxor a b) c) d)) (p := 4 * j); [lia|]|].
  - intros q cur Hq L _ _. cbv zeta. fold (nib a (N.of_nat (28 - 8 * q))).
    repeat match goal with |- context [N.land (N.shiftr ?x ?s) 15] => change (N.land (N.shiftr x s) 15) with (nib x s) end.
    rewrite !get_xor by (auto using nib_bound; lia). cbn [bind].
    rewrite !get_xor by (auto using nib_bound, xor16; lia). cbn [bind].
    rewrite !nib_xor4. apply wp_aset; [lia|]. f_equal. unfold wbyte.
    rewrite <- nib_byte. f_equal. f_equal; [f_equal; f_equal; lia|f_equal; lia].
  - intros s' [L W]. split; [lia|]. intros k Hk. rewrite W, map_length, seq_length.
    pose proof (column_index k j Hk Hj) as HC. pose proof (Nat.div_mod k 4 ltac:(lia)) as D. pose proof (mod4 k) as M.
    destruct (Nat.eqb_spec (k / 4) j) as [E|E].
    + destruct (Nat.leb_spec (4 * j) k), (Nat.ltb_spec k (4 * j + 4)); try lia. cbn [andb].
      replace (k mod 4) with (k - 4 * j) by lia.
      rewrite (nth_indep _ 0%N (wbyte (N.lxor (N.lxor (N.lxor a b) c) d) 0)) by (rewrite map_length, seq_length; lia).
      rewrite map_nth, seq_nth by lia. reflexivity.
    + destruct (Nat.leb_spec (4 * j) k), (Nat.ltb_spec k (4 * j + 4)); cbn [andb]; auto.
      exfalso. apply E. apply HC. lia.
Qed.

(** ** The tables TyiTables *)

Definition tyi (q : nat) (x : N) : N :=
  match q with
  | 0 => word_of (gmul 2 x) x x (gmul 3 x)
  | 1 => word_of (gmul 3 x) (gmul 2 x) x x
  | 2 => word_of x (gmul 3 x) (gmul 2 x) x
  | _ => word_of x x (gmul 3 x) (gmul 2 x)
  end.
Lemma tyi_bound : forall q x, (x < 256)%N -> (tyi q x < 2 ^ 32)%N.
Proof.
  intros q x Hx. assert (gmul 2 x < 256)%N by (apply gmul_bound; lia). assert (gmul 3 x < 256)%N by (apply gmul_bound; lia).
  unfold tyi. destruct q as [|[|[|q]]]; apply word_bound; auto.
Qed.
Definition tyi_ok (T : list (list N)) : Prop := dims2 4 256 T /\
  forall q x, q < 4 -> x < 256 -> at2 0%N T q x = tyi q (N.of_nat x).
Lemma gen_TyiTables_wp : forall T, dims2 4 256 T -> wp (gen_TyiTables false T) tyi_ok.
Proof.
  intros T DT. unfold gen_TyiTables.
  apply wp_for_up with (I := fun i T => dims2 4 256 T /\ (0 < i -> tyi_ok T)); [lia|split; auto; lia| |].
  2:{ intros T' [_ H]. apply H. lia. }
  clear T DT. intros i0 T _ _ [DT _].
  apply wp_for_up with (I := fun x T => dims2 4 256 T /\
    forall q x', q < 4 -> x' < x -> at2 0%N T q x' = tyi q (N.of_nat x')); [lia|split; auto; intros; lia| |].
  2:{ intros T' H. split; [apply H|]. intros _. exact H. }
  clear T DT. intros x T _ Hx [DT HT]. cbv zeta. rewrite !gMul_ok by lia. cbn [bind].
  assert (B : (N.of_nat x < 256)%N) by lia.
  assert (B2 : (gmul 2 (N.of_nat x) < 256)%N) by (apply gmul_bound; lia).
  assert (B3 : (gmul 3 (N.of_nat x) < 256)%N) by (apply gmul_bound; lia).
  unfold int_shl24. cbn [andb bind]. rewrite !word_lor by auto.
  apply wp_bind. apply wp_set2 with (d := 0%N) (n := 4) (m := 256); auto; try lia. intros T1 D1 H1 _.
  apply wp_bind. apply wp_set2 with (d := 0%N) (n := 4) (m := 256); auto; try lia. intros T2 D2 H2 _.
  apply wp_bind. apply wp_set2 with (d := 0%N) (n := 4) (m := 256); auto; try lia. intros T3 D3 H3 _.
  apply wp_set2 with (d := 0%N) (n := 4) (m := 256); auto; try lia. intros T4 D4 H4 _. split; auto.
  intros q x' Hq Hx'. rewrite H4, H3, H2, H1.
  destruct (Nat.eqb_spec x' x) as [->|Hne].
  - do 4 (destruct q as [|q]; [reflexivity|]). lia.
  - rewrite !andb_false_r. apply HT; auto. lia.
Qed.

(** ** The random bijections *)

Definition marr (w : width) (n m l : nat) (t : list (list (list mat))) : Prop :=
  dims3 n m l t /\ forall i j k, i < n -> j < m -> k < l -> shapeM w (at3 [] t i j k).
Lemma wp_set_marr : forall w n m l t i j k x (Q : list (list (list mat)) -> Prop), marr w n m l t ->
  i < n -> j < m -> k < l -> shapeM w x ->
  (forall t', marr w n m l t' ->
     (forall i' j' k', at3 [] t' i' j' k' =
        if (Nat.eqb i' i && (Nat.eqb j' j && Nat.eqb k' k))%bool then x else at3 [] t i' j' k') -> Q t') ->
  wp (set3 t i j k x) Q.
Proof.
  intros w n m l t i j k x Q [D H] Hi Hj Hk Hx HQ. apply wp_set3 with (d := [] : mat) (n := n) (m := m) (l := l); auto.
  intros t' D' H' _. apply HQ; auto. split; auto. intros i' j' k' Hi' Hj' Hk'. rewrite H'.
  destruct (_ && _)%bool; auto.
Qed.
Lemma nth_rept : forall A (x d : A) n i, i < n -> nth i (repeat x n) d = x.
Proof. intros A x d n. induction n as [|n IH]; intros [|i] H; try lia; auto. apply IH. lia. Qed.
Lemma marr_fresh : forall w n m l, marr w n m l (repeat (repeat (repeat (fresh_m w) l) m) n).
Proof.
  intros w n m l. split.
  - split; [apply repeat_length|]. intros i Hi. rewrite nth_rept by auto. split; [apply repeat_length|].
    intros j Hj. rewrite nth_rept by auto. apply repeat_length.
  - intros i j k Hi Hj Hk. unfold at3. rewrite !nth_rept by auto. apply shape_fresh_m.
Qed.
Definition pairs (e : endian) (w : width) (D : nat -> nat -> Prop) (t : list (list (list mat))) : Prop :=
  forall i k, D i k -> pairM e w (at3 [] t i k 0) (at3 [] t i k 1).
Lemma fill_pair : forall e w n m t s i k, one w -> marr w n m 2 t -> i < n -> k < m ->
  wp (m0 <- get3 t i k 0 ;; m1 <- get3 t i k 1 ;;
      ' (a, b, s) <- genMatpair e w m0 m1 s ;;
      mb <- set3 t i k 0 a ;; mb <- set3 mb i k 1 b ;; Ok (mb, s))
     (fun st => marr w n m 2 (fst st) /\
        forall D, pairs e w D t -> pairs e w (fun i' k' => D i' k' \/ i' = i /\ k' = k) (fst st)).
Proof.
  intros e w n m t s i k Hw Ht Hi Hk. pose proof Ht as [D HS].
  rewrite !(get3_ok mat [] n m 2) by (auto; lia). cbn [bind]. apply wp_bind.
  eapply wp_mono; [apply genMatpair_wp; apply HS; auto|]. intros [[a b] s'] (Wa & Wb & Hinv & _).
  apply wp_bind. eapply wp_set_marr; eauto using wfM_shape. intros t1 M1 H1.
  apply wp_bind. eapply wp_set_marr; eauto using wfM_shape. intros t2 M2 H2.
  apply wp_ok. cbn [fst]. split; [exact M2|]. intros DD HP i' k' HD. rewrite !H2, !H1.
  destruct (Nat.eqb_spec i' i) as [->|], (Nat.eqb_spec k' k) as [->|]; cbn [andb Nat.eqb].
  - apply pairM_intro; auto.
  - apply HP. destruct HD as [?|[? ?]]; auto. contradiction.
  - apply HP. destruct HD as [?|[? ?]]; auto. contradiction.
  - apply HP. destruct HD as [?|[? ?]]; auto. contradiction.
Qed.
Lemma pairs_mono : forall e w (D D' : nat -> nat -> Prop) t, pairs e w D t -> (forall i k, D' i k -> D i k) -> pairs e w D' t.
Proof. intros e w D D' t H HD i k Hi. apply H, HD, Hi. Qed.
Lemma gen_bijections_wp : forall e mb32 mb8 s, marr W32 10 4 2 mb32 -> marr W8 10 16 2 mb8 ->
  wp (gen_bijections e mb32 mb8 s) (fun st => let '(mb32, mb8, _) := st in
    marr W32 10 4 2 mb32 /\ marr W8 10 16 2 mb8 /\
    pairs e W32 (fun i k => i < 10 /\ k < 4) mb32 /\ pairs e W8 (fun i k => i < 10 /\ k < 16) mb8).
Proof.
  intros e mb32 mb8 s H32 H8. unfold gen_bijections.
  apply wp_for_up with (I := fun i (st : list (list (list mat)) * list (list (list mat)) * world) => let '(mb32, mb8, _) := st in
    marr W32 10 4 2 mb32 /\ marr W8 10 16 2 mb8 /\
    pairs e W32 (fun i' k => i' < i /\ k < 4) mb32 /\ pairs e W8 (fun i' k => i' < i /\ k < 16) mb8); [lia| | |].
  - split; auto. split; auto. split; intros i k [? _]; lia.
  - clear mb32 mb8 s H32 H8. intros i [[mb32 mb8] s] _ Hi (H32 & H8 & P32 & P8). cbv zeta. apply wp_bind.
    apply wp_for_up with (I := fun k (st : list (list (list mat)) * world) => marr W32 10 4 2 (fst st) /\
      pairs e W32 (fun i' k' => (i' < i /\ k' < 4) \/ i' = i /\ k' < k) (fst st)); [lia| | |].
    + cbn [fst]. split; auto. eapply pairs_mono; [exact P32|]. cbv beta. intros; lia.
    + intros k [t st] _ Hk [M P]. cbn [fst] in M, P. eapply wp_mono; [apply (fill_pair e W32 10 4 t st i k); auto; reflexivity|].
      intros [t' st'] [M' P']. cbn [fst] in *. split; auto. eapply pairs_mono; [apply P', P|]. cbv beta. intros; lia.
    + intros [t st] [M P]. cbn [fst] in M, P. apply wp_bind.
      apply wp_for_up with (I := fun k (st : list (list (list mat)) * world) => marr W8 10 16 2 (fst st) /\
        pairs e W8 (fun i' k' => (i' < i /\ k' < 16) \/ i' = i /\ k' < k) (fst st)); [lia| | |].
      * cbn [fst]. split; auto. eapply pairs_mono; [exact P8|]. cbv beta. intros; lia.
      * intros k [t2 st2] _ Hk [M2 P2]. cbn [fst] in M2, P2. eapply wp_mono; [apply (fill_pair e W8 10 16 t2 st2 i k); auto; reflexivity|].
        intros [t' st'] [M' P']. cbn [fst] in *. split; auto. eapply pairs_mono; [apply P', P2|]. cbv beta. intros; lia.
      * intros [t2 st2] [M2 P2]. cbn [fst] in M2, P2. apply wp_ok. split; auto. split; auto.
        split; (eapply pairs_mono; [eassumption|]); cbv beta; intros; lia.
  - intros [[t32 t8] st] H. exact H.
Qed.

(** ** The T-boxes *)

Definition sk (ek : list N) (i j : nat) : N := nth j (ShiftRows (rks ek i)) 0%N.
Definition ent (ek : list N) (i j x : nat) : N := aes_sbox (N.lxor (N.of_nat x) (sk ek i j)).
Definition tb (ek : list N) (i j x : nat) : N :=
  if Nat.eqb i 9 then N.lxor (ent ek i j x) (nth j (rks ek 10) 0%N) else ent ek i j x.
Definition ty (ek : list N) (i j x : nat) : N := tyi (j mod 4) (ent ek i j x).

Lemma sk_bound : forall ek i j, bytes 176 ek -> i < 11 -> (sk ek i j < 256)%N.
Proof. intros ek i j He Hi. apply nth_byte. apply ShiftRows_bytes, rks_bytes; auto. Qed.
Lemma ent_bound : forall ek i j x, bytes 176 ek -> i < 11 -> x < 256 -> (ent ek i j x < 256)%N.
Proof. intros. apply aes_sbox_bound, xor_byte; [lia|]. apply sk_bound; auto. Qed.

Record tbinv (e : endian) (mb8 : list (list (list mat))) (ek0 : list N) (MO : list (list (list N)))
  (X : list (list (list (list N)))) (D DM : nat -> nat -> nat -> Prop) (t : aestab) : Prop := mktb
  { ti_TB : dims3 10 16 256 (tTBoxes t); ti_TY : dims3 9 16 256 (tTyiBoxes t); ti_MI : dims3 10 16 256 (tMixIn t);
    ti_TT : tyi_ok (tTyiTables t); ti_MO : tMixOut t = MO; ti_X : tXor t = X;
    ti_tb : forall i j x, i < 10 -> j < 16 -> x < 256 -> D i j x -> at3 0%N (tTBoxes t) i j x = tb ek0 i j x;
    ti_ty : forall i j x, i < 9 -> j < 16 -> x < 256 -> D i j x -> at3 0%N (tTyiBoxes t) i j x = ty ek0 i j x;
    ti_mi : forall i j x, i < 10 -> j < 16 -> x < 256 -> DM i j x ->
      at3 0%N (tMixIn t) i j x = mu e W8 (at3 [] mb8 i j 0) (N.of_nat x) }.
Lemma tbinv_mono : forall e mb8 ek0 MO X (D DM D' DM' : nat -> nat -> nat -> Prop) t,
  tbinv e mb8 ek0 MO X D DM t ->
  (forall i j x, i < 10 -> j < 16 -> x < 256 -> D' i j x -> D i j x) ->
  (forall i j x, i < 10 -> j < 16 -> x < 256 -> DM' i j x -> DM i j x) -> tbinv e mb8 ek0 MO X D' DM' t.
Proof. intros e mb8 ek0 MO X D DM D' DM' t [] H1 H2. split; auto. Qed.

Lemma rks_nth : forall ek i j, j < 16 -> nth j (rks ek i) 0%N = nth (16 * i + j) ek 0%N.
Proof. intros. unfold rks. apply nth_slice. auto. Qed.

Definition pairs8 e mb8 := marr W8 10 16 2 mb8 /\ pairs e W8 (fun i k => i < 10 /\ k < 16) mb8.
Lemma mu8_ok : forall e mb8 i j k x, pairs8 e mb8 -> i < 10 -> j < 16 -> k < 2 ->
  (m <- get3 mb8 i j k ;; MatMulNum e W8 m x) = Ok (mu e W8 (at3 [] mb8 i j k) x) /\
  (mu e W8 (at3 [] mb8 i j k) x < 256)%N.
Proof.
  intros e mb8 i j k x [M P] Hi Hj Hk. rewrite (get3_ok mat [] 10 16 2) by (auto; apply M). cbn [bind].
  destruct (P i j (conj Hi Hj)) as (W0 & W1 & _).
  assert (W : wfM W8 (at3 [] mb8 i j k)) by (destruct k as [|[|k]]; auto; lia).
  destruct (mu_spec e W8 _ x eq_refl W) as (E & B & _). auto.
Qed.
Lemma bind_assoc : forall A B C (m : res A) (f : A -> res B) (g : B -> res C),
  bind (bind m f) g = bind m (fun a => bind (f a) g).
Proof. intros A B C [a|] f g; reflexivity. Qed.

Lemma tbox_entry_wp : forall e mb8 ek0 ek MO X i j x t, pairs8 e mb8 -> bytes 176 ek0 -> shifted (S i) ek0 ek ->
  i < 10 -> j < 16 -> x < 256 ->
  tbinv e mb8 ek0 MO X (fun i' j' x' => i' < i \/ i' = i /\ (j' < j \/ j' = j /\ x' < x))
    (fun i' j' _ => i' < i \/ i' = i /\ j' <= j) t ->
  wp (tbox_entry e mb8 ek i j x t)
     (tbinv e mb8 ek0 MO X (fun i' j' x' => i' < i \/ i' = i /\ (j' < j \/ j' = j /\ x' < S x))
       (fun i' j' _ => i' < i \/ i' = i /\ j' <= j)).
Proof.
  intros e mb8 ek0 ek MO X i j x t Hp He (Le & S1 & S2) Hi Hj Hx HT. pose proof (proj1 He) as L0. rewrite L0 in Le.
  destruct HT as [DTB DTY DMI TT EMO EX Htb Hty Hmi]. unfold tbox_entry.
  match goal with |- wp (bind ?c _) _ => assert (E : c = Ok (N.of_nat x)) end.
  { destruct (Nat.ltb_spec 0 i), (Nat.ltb_spec i 9); cbn [andb]; auto.
    destruct (mu8_ok e mb8 (i - 1) j 1 (N.of_nat x) Hp) as [E B]; auto; [lia|].
    rewrite <- bind_assoc, E. cbn [bind]. rewrite (get3_ok N 0%N 10 16 256) by (auto; lia).
    rewrite Hmi by (auto; lia). rewrite N2Nat.id. f_equal.
    destruct Hp as [_ P]. destruct (P (i - 1) j ltac:(cbv beta; lia)) as (_ & _ & _ & I). apply I.
    change (2 ^ N.of_nat (wb W8))%N with 256%N. lia. }
  rewrite E. clear E. cbn [bind]. rewrite (aget_ok _ ek _ 0%N) by lia. cbn [bind].
  replace (nth (16 * i + j) ek 0%N) with (sk ek0 i j).
  2:{ unfold sk. rewrite <- S1 by lia. apply rks_nth. auto. }
  assert (Bs : (sk ek0 i j < 256)%N) by (apply sk_bound; auto; lia).
  assert (Be : (ent ek0 i j x < 256)%N) by (apply ent_bound; auto; lia).
  rewrite aget_sbox by (apply xor_byte; auto; lia). cbn [bind].
  remember (ent ek0 i j x) as v eqn:Ev. unfold ent in Ev. rewrite <- Ev. rewrite (uchar_id _ Be).
  apply wp_bind. apply wp_set3 with (d := 0%N) (n := 10) (m := 16) (l := 256); auto. intros TB1 D1 H1 _.
  destruct (Nat.eqb_spec i 9) as [E9|E9].
  - rewrite (get3_ok N 0%N 10 16 256) by auto. cbn [bind].
    rewrite (aget_ok _ ek _ 0%N) by lia. cbn [bind].
    apply wp_bind. apply wp_set3 with (d := 0%N) (n := 10) (m := 16) (l := 256); auto. intros TB2 D2 H2 _.
    apply wp_ok. split; cbn [tTBoxes tTyiBoxes tMixIn tTyiTables tMixOut tXor]; auto.
    + intros i' j' x' Hi' Hj' Hx' HD. rewrite H2, !H1. rewrite !Nat.eqb_refl. cbn [andb].
      change 160 with (16 * 10). rewrite <- rks_nth by auto. rewrite S2 by lia.
      destruct (Nat.eqb_spec i' i) as [->|], (Nat.eqb_spec j' j) as [->|], (Nat.eqb_spec x' x) as [->|]; cbn [andb];
        try (apply Htb; auto; lia).
      unfold tb, ent. rewrite E9 in *. rewrite <- Ev. reflexivity.
    + intros i' j' x' Hi' Hj' Hx' HD. apply Hty; auto. lia.
  - assert (Bm := mod4 j). apply wp_bind. apply wp_get2 with (d := 0%N) (n := 4) (m := 256); [apply TT|auto|lia|].
    rewrite (proj2 TT) by (auto; lia). rewrite N2Nat.id.
    apply wp_bind. apply wp_set3 with (d := 0%N) (n := 9) (m := 16) (l := 256); auto; [lia|]. intros TY2 D2 H2 _.
    apply wp_ok. split; cbn [tTBoxes tTyiBoxes tMixIn tTyiTables tMixOut tXor]; auto.
    + intros i' j' x' Hi' Hj' Hx' HD. rewrite H1.
      destruct (Nat.eqb_spec i' i) as [->|], (Nat.eqb_spec j' j) as [->|], (Nat.eqb_spec x' x) as [->|]; cbn [andb];
        try (apply Htb; auto; lia).
      unfold tb, ent. destruct (Nat.eqb_spec i 9); [lia|]. auto.
    + intros i' j' x' Hi' Hj' Hx' HD. rewrite H2.
      destruct (Nat.eqb_spec i' i) as [->|], (Nat.eqb_spec j' j) as [->|], (Nat.eqb_spec x' x) as [->|]; cbn [andb];
        try (apply Hty; auto; lia). unfold ty, ent. rewrite <- Ev. reflexivity.
Qed.

Lemma gen_TBoxes_wp : forall e mb8 ek0 MO X t, pairs8 e mb8 -> bytes 176 ek0 ->
  tbinv e mb8 ek0 MO X (fun _ _ _ => False) (fun _ _ _ => False) t ->
  wp (gen_TBoxes e mb8 ek0 t) (fun st => shifted 10 ek0 (fst st) /\
    tbinv e mb8 ek0 MO X (fun _ _ _ => True) (fun _ _ _ => True) (snd st)).
Proof.
  intros e mb8 ek0 MO X t Hp He HT. unfold gen_TBoxes.
  apply wp_for_up with (I := fun i (st : list N * aestab) => shifted i ek0 (fst st) /\
    tbinv e mb8 ek0 MO X (fun i' _ _ => i' < i) (fun i' _ _ => i' < i) (snd st)); [lia| | |].
  - cbn [fst snd]. split; [split; [reflexivity|]; split; [intros; lia|auto]|].
    eapply tbinv_mono; [exact HT| |]; cbv beta; intros; lia.
  - clear t HT. intros i [ek t] _ Hi [HS HT]. cbn [fst snd] in HS, HT. apply wp_bind.
    eapply wp_mono; [apply shift_next; [apply He|lia|exact HS]|]. clear ek HS. intros ek HS. apply wp_bind.
    apply wp_for_up with (I := fun j t =>
      tbinv e mb8 ek0 MO X (fun i' j' _ => i' < i \/ i' = i /\ j' < j) (fun i' j' _ => i' < i \/ i' = i /\ j' < j) t); [lia| | |].
    + eapply tbinv_mono; [exact HT| |]; cbv beta; intros; lia.
    + clear t HT. intros j t _ Hj HT. apply wp_bind.
      apply wp_for_up with (I := fun x MI => dims3 10 16 256 MI /\
        forall i' j' x', i' < 10 -> j' < 16 -> x' < 256 -> (i' < i \/ i' = i /\ (j' < j \/ j' = j /\ x' < x)) ->
          at3 0%N MI i' j' x' = mu e W8 (at3 [] mb8 i' j' 0) (N.of_nat x')); [lia| | |].
      * split; [apply HT|]. intros. apply (ti_mi _ _ _ _ _ _ _ _ HT); auto. lia.
      * intros x MI _ Hx [DM HM]. rewrite <- bind_assoc. destruct (mu8_ok e mb8 i j 0 (N.of_nat x) Hp) as [E B]; auto.
        rewrite E. cbn [bind]. apply wp_set3 with (d := 0%N) (n := 10) (m := 16) (l := 256); auto. intros MI' D' H' _.
        split; auto. intros i' j' x' Hi' Hj' Hx' HD. rewrite H'.
        destruct (Nat.eqb_spec i' i) as [->|], (Nat.eqb_spec j' j) as [->|], (Nat.eqb_spec x' x) as [->|]; cbn [andb]; auto;
          apply HM; auto; lia.
      * intros MI [DM HM].
        apply wp_for_up with (I := fun x => tbinv e mb8 ek0 MO X (fun i' j' x' => i' < i \/ i' = i /\ (j' < j \/ j' = j /\ x' < x))
          (fun i' j' _ => i' < i \/ i' = i /\ j' <= j)); [lia| | |].
        -- destruct HT. split; cbn [tTBoxes tTyiBoxes tMixIn tTyiTables tMixOut tXor]; auto.
           ++ intros. apply ti_tb0; auto. lia.
           ++ intros. apply ti_ty0; auto. lia.
           ++ intros. apply HM; auto. lia.
        -- intros x t' _ Hx HT'. apply tbox_entry_wp; auto.
        -- intros t' HT'. eapply tbinv_mono; [exact HT'| |]; cbv beta; intros; lia.
    + intros t' HT'. apply wp_ok. cbn [fst snd]. split; auto. eapply tbinv_mono; [exact HT'| |]; cbv beta; intros; lia.
  - intros [ek t'] [HS HT']. split; auto. eapply tbinv_mono; [exact HT'| |]; cbv beta; intros; lia.
Qed.

(** ** The mixing bijections *)

Lemma reset_wp : forall e mb8 i j MI, pairs8 e mb8 -> i < 9 -> j < 4 -> dims3 10 16 256 MI ->
  wp (reset_mixBijIn e mb8 i j MI) (fun MI' => dims3 10 16 256 MI' /\
    forall q x, q < 4 -> x < 256 -> at3 0%N MI' i (4 * j + q) x = N.of_nat x).
Proof.
  intros e mb8 i j MI Hp Hi Hj HD. unfold reset_mixBijIn.
  apply wp_for_up with (I := fun x MI => dims3 10 16 256 MI /\
    forall q x', q < 4 -> x' < x -> at3 0%N MI i (4 * j + q) x' = N.of_nat x'); [lia| | |].
  - split; auto. intros; lia.
  - clear MI HD. intros x MI _ Hx [HD HM]. destruct (Nat.ltb_spec i 9); [|lia]. apply wp_bind.
    apply wp_for_up with (I := fun _ MI => dims3 10 16 256 MI /\
      forall q x', q < 4 -> x' < x -> at3 0%N MI i (4 * j + q) x' = N.of_nat x'); [lia|auto| |].
    + clear MI HD HM. intros q MI _ Hq [HD HM]. rewrite <- bind_assoc.
      destruct (mu8_ok e mb8 i (4 * j + q) 0 (N.of_nat x) Hp) as [E B]; try lia.
      rewrite E. cbn [bind]. apply wp_set3 with (d := 0%N) (n := 10) (m := 16) (l := 256); auto; try lia.
      intros MI' D' H' _. split; auto. intros q' x' Hq' Hx'. rewrite H'. destruct (Nat.eqb_spec x' x); [lia|].
      rewrite !andb_false_r. auto.
    + clear MI HD HM. intros MI [HD HM].
      apply wp_for_up with (I := fun q MI => dims3 10 16 256 MI /\
        forall q' x', q' < 4 -> (x' < x \/ x' = x /\ q' < q) -> at3 0%N MI i (4 * j + q') x' = N.of_nat x'); [lia| | |].
      * split; auto. intros q' x' Hq' [?|[? ?]]; [auto|lia].
      * clear MI HD HM. intros q MI _ Hq [HD HM].
        apply wp_set3 with (d := 0%N) (n := 10) (m := 16) (l := 256); auto; try lia.
        intros MI' D' H' _. split; auto. intros q' x' Hq' Hx'. rewrite H'.
        destruct (Nat.eqb_spec i i); [|lia].
        destruct (Nat.eqb_spec (4 * j + q') (4 * j + q)), (Nat.eqb_spec x' x) as [->|]; cbn [andb]; auto; apply HM; auto; lia.
      * intros MI' [D' H']. split; auto. intros q x' Hq Hx'. apply H'; auto. lia.
  - intros MI' [D' H']. split; auto.
Qed.

Definition id_at (MI : list (list (list N))) (i j : nat) : Prop :=
  dims3 10 16 256 MI /\ forall q x, q < 4 -> x < 256 -> at3 0%N MI i (4 * j + q) x = N.of_nat x.
Lemma u32_shl : forall a n, (a < 256)%N -> (n <= 24)%N -> u32 (N.shiftl a n) = N.shiftl a n.
Proof.
  intros a n Ha Hn. unfold u32. apply N.mod_small. rewrite N.shiftl_mul_pow2.
  apply N.lt_le_trans with (256 * 2 ^ n)%N; [apply N.mul_lt_mono_pos_r; auto; apply N.neq_0_lt_0, N.pow_nonzero; discriminate|].
  apply N.le_trans with (256 * 2 ^ 24)%N; [apply N.mul_le_mono_l, N.pow_le_mono_r; auto; discriminate|].
  cbv. discriminate.
Qed.
Lemma mix_word_ok : forall MI i j aa, id_at MI i j -> i < 9 -> j < 4 -> (aa < 2 ^ 32)%N -> mix_word MI i j aa = Ok aa.
Proof.
  intros MI i j aa [D H] Hi Hj Ha. unfold mix_word.
  change 24%N with (8 * 3)%N at 1. change 16%N with (8 * 2)%N at 1. change 8%N with (8 * 1)%N at 3.
  assert (G : forall q k, q < 4 -> get3 MI i (4 * j + q) (N.to_nat (byte aa k)) = Ok (byte aa k)).
  { intros q k Hq. assert (B := byte_bound aa k). rewrite (get3_ok N 0%N 10 16 256) by (auto; lia). rewrite H by (auto; lia).
    rewrite N2Nat.id. reflexivity. }
  pose proof (G 0 3%N ltac:(lia)) as G0. rewrite Nat.add_0_r in G0.
  pose proof (land_byte aa 3) as L3. pose proof (land_byte aa 2) as L2. pose proof (land_byte aa 1) as L1. pose proof (land_byte aa 0) as L0.
  change (8 * 3)%N with 24%N in *. change (8 * 2)%N with 16%N in *. change (8 * 1)%N with 8%N in *. change (8 * 0)%N with 0%N in *.
  rewrite L3, L2, L1, L0. rewrite G0. rewrite !G by lia. cbn [bind].
  rewrite !u32_shl by (try apply byte_bound; lia). rewrite word_lor by apply byte_bound. rewrite word_bytes by auto. reflexivity.
Qed.

Definition m32 (mb32 : list (list (list mat))) (i j k : nat) : mat := at3 [] mb32 i j k.
Definition mot (e : endian) (mb32 : list (list (list mat))) (i j x : nat) : N :=
  mu e W32 (at3 [] mb32 i (j / 4) 1) (N.shiftl (N.of_nat x) (N.of_nat (24 - 8 * (j mod 4)))).
Definition tyt (e : endian) (mb32 : list (list (list mat))) (ek : list N) (i j x : nat) : N :=
  mu e W32 (at3 [] mb32 i (j / 4) 0) (ty ek i j x).
Record mixinv (e : endian) (mb32 : list (list (list mat))) (ek : list N) (t0 : aestab)
  (D : nat -> nat -> nat -> Prop) (t : aestab) : Prop := mkmix
  { mi_TB : tTBoxes t = tTBoxes t0; mi_TT : tTyiTables t = tTyiTables t0; mi_X : tXor t = tXor t0;
    mi_TY : dims3 9 16 256 (tTyiBoxes t); mi_MI : dims3 10 16 256 (tMixIn t); mi_MO : dims3 10 16 256 (tMixOut t);
    mi_done : forall i j x, i < 9 -> j < 16 -> x < 256 -> D i j x ->
      at3 0%N (tTyiBoxes t) i j x = tyt e mb32 ek i j x /\ at3 0%N (tMixOut t) i j x = mot e mb32 i j x;
    mi_todo : forall i j x, i < 9 -> j < 16 -> x < 256 -> ~ D i j x -> at3 0%N (tTyiBoxes t) i j x = ty ek i j x }.
Lemma mixinv_mono : forall e mb32 ek t0 (D D' : nat -> nat -> nat -> Prop) t, mixinv e mb32 ek t0 D t ->
  (forall i j x, i < 9 -> j < 16 -> x < 256 -> (D' i j x <-> D i j x)) -> mixinv e mb32 ek t0 D' t.
Proof.
  intros e mb32 ek t0 D D' t [] H. split; auto.
  - intros. apply mi_done0; auto. apply H; auto.
  - intros i j x Hi Hj Hx HD. apply mi_todo0; auto. intros ?. apply HD. apply H; auto.
Qed.

Definition pairs32 e mb32 := marr W32 10 4 2 mb32 /\ pairs e W32 (fun i k => i < 10 /\ k < 4) mb32.
Lemma mu32_ok : forall e mb32 i j k x, pairs32 e mb32 -> i < 10 -> j < 4 -> k < 2 ->
  MatMulNum e W32 (at3 [] mb32 i j k) x = Ok (mu e W32 (at3 [] mb32 i j k) x) /\
  (mu e W32 (at3 [] mb32 i j k) x < 2 ^ 32)%N.
Proof.
  intros e mb32 i j k x [M P] Hi Hj Hk.
  destruct (P i j (conj Hi Hj)) as (W0 & W1 & _).
  assert (W : wfM W32 (at3 [] mb32 i j k)) by (destruct k as [|[|k]]; auto; lia).
  destruct (mu_spec e W32 _ x eq_refl W) as (E & B & _). auto.
Qed.

Lemma mix_tables_wp : forall e mb32 ek t0 i j t, pairs32 e mb32 -> bytes 176 ek -> i < 9 -> j < 4 ->
  id_at (tMixIn t) i j ->
  mixinv e mb32 ek t0 (fun i' j' _ => i' < i \/ i' = i /\ j' / 4 < j) t ->
  wp (mix_tables e mb32 i j t) (mixinv e mb32 ek t0 (fun i' j' _ => i' < i \/ i' = i /\ j' / 4 < S j)).
Proof.
  intros e mb32 ek t0 i j t Hp He Hi Hj HI HT. unfold mix_tables.
  apply wp_for_up with (I := fun x t => id_at (tMixIn t) i j /\
    mixinv e mb32 ek t0 (fun i' j' x' => i' < i \/ i' = i /\ (j' / 4 < j \/ j' / 4 = j /\ x' < x)) t); [lia| | |].
  - split; auto. eapply mixinv_mono; [exact HT|]. cbv beta. intros; lia.
  - clear t HI HT. intros x t _ Hx [HI HT]. destruct (Nat.ltb_spec i 9); [|lia].
    pose proof Hp as [[DM _] _]. rewrite !(get3_ok mat [] 10 4 2) by (auto; lia). cbn [bind].
    destruct HT as [ETB ETT EX DTY DMI DMO Hd Hn].
    apply wp_bind. apply wp_for_up with (I := fun q TY => dims3 9 16 256 TY /\
      forall i' j' x', at3 0%N TY i' j' x' =
        if (Nat.eqb i' i && (Nat.eqb (j' / 4) j && Nat.ltb (j' mod 4) q && Nat.eqb x' x))%bool
        then tyt e mb32 ek i' j' x' else at3 0%N (tTyiBoxes t) i' j' x'); [lia| | |].
    { split; auto. intros. change (Nat.ltb (j' mod 4) 0) with false. rewrite !andb_false_r. cbn [andb]. rewrite ?andb_false_r. reflexivity. }
    { intros q TY _ Hq [D H0]. apply wp_bind. apply wp_get3 with (d := 0%N) (n := 9) (m := 16) (l := 256); auto; [lia|].
      destruct (col_mod j q Hq) as [Cm Cd].
      rewrite Hn by (auto; lia).
      destruct (mu32_ok e mb32 i j 0 (ty ek i (4 * j + q) x) Hp) as [E B]; try lia. rewrite E. cbn [bind].
      apply wp_set3 with (d := 0%N) (n := 9) (m := 16) (l := 256); auto; [lia|]. intros TY' D' H' _. split; auto.
      intros i' j' x'. rewrite H', H0.
      pose proof (Nat.div_mod j' 4 ltac:(lia)) as DJ. pose proof (mod4 j') as MJ.
      destruct (Nat.eqb_spec i' i) as [->|]; cbn [andb]; auto.
      destruct (Nat.eqb_spec x' x) as [->|]; rewrite ?andb_true_r, ?andb_false_r; auto.
      destruct (Nat.eqb_spec j' (4 * j + q)) as [->|Hne].
      - rewrite Cm, Cd, Nat.eqb_refl. destruct (Nat.ltb_spec q (S q)); [|lia]. cbn [andb].
        unfold tyt. rewrite Cd. reflexivity.
      - destruct (Nat.eqb_spec (j' / 4) j); cbn [andb]; auto.
        destruct (Nat.ltb_spec (j' mod 4) q), (Nat.ltb_spec (j' mod 4) (S q)); auto; lia. }
    intros TY [D1 H1]. apply wp_bind. apply wp_for_up with (I := fun q MO => dims3 10 16 256 MO /\
      forall i' j' x', at3 0%N MO i' j' x' =
        if (Nat.eqb i' i && (Nat.eqb (j' / 4) j && Nat.ltb (j' mod 4) q && Nat.eqb x' x))%bool
        then mot e mb32 i' j' x' else at3 0%N (tMixOut t) i' j' x'); [lia| | |].
    { split; auto. intros. change (Nat.ltb (j' mod 4) 0) with false. rewrite !andb_false_r. cbn [andb]. rewrite ?andb_false_r. reflexivity. }
    { intros q MO _ Hq [D H0]. destruct (col_mod j q Hq) as [Cm Cd].
      destruct (mu32_ok e mb32 i j 1 (N.shiftl (N.of_nat x) (N.of_nat (24 - 8 * q))) Hp) as [E B]; try lia. rewrite E. cbn [bind].
      rewrite mix_word_ok by auto. cbn [bind].
      apply wp_set3 with (d := 0%N) (n := 10) (m := 16) (l := 256); auto; try lia. intros MO' D' H' _. split; auto.
      intros i' j' x'. rewrite H', H0.
      pose proof (Nat.div_mod j' 4 ltac:(lia)) as DJ. pose proof (mod4 j') as MJ.
      destruct (Nat.eqb_spec i' i) as [->|]; cbn [andb]; auto.
      destruct (Nat.eqb_spec x' x) as [->|]; rewrite ?andb_true_r, ?andb_false_r; auto.
      destruct (Nat.eqb_spec j' (4 * j + q)) as [->|Hne].
      - rewrite Cm, Cd, Nat.eqb_refl. destruct (Nat.ltb_spec q (S q)); [|lia]. cbn [andb].
        unfold mot. rewrite Cd, Cm. reflexivity.
      - destruct (Nat.eqb_spec (j' / 4) j); cbn [andb]; auto.
        destruct (Nat.ltb_spec (j' mod 4) q), (Nat.ltb_spec (j' mod 4) (S q)); auto; lia. }
    intros MO [D2 H2]. apply wp_ok. split; [exact HI|].
    split; cbn [tTBoxes tTyiBoxes tMixIn tTyiTables tMixOut tXor]; auto.
    + intros i' j' x' Hi' Hj' Hx' HD. rewrite H1, H2. pose proof (mod4 j') as MJ.
      destruct (Nat.ltb_spec (j' mod 4) 4); [|lia]. rewrite andb_true_r.
      destruct (Nat.eqb_spec i' i) as [->|], (Nat.eqb_spec (j' / 4) j), (Nat.eqb_spec x' x) as [->|]; cbn [andb]; auto; apply Hd; auto; lia.
    + intros i' j' x' Hi' Hj' Hx' HD. rewrite H1.
      destruct (Nat.eqb_spec i' i) as [->|], (Nat.eqb_spec (j' / 4) j), (Nat.eqb_spec x' x) as [->|]; cbn [andb];
        rewrite ?andb_false_r; auto; try (apply Hn; auto; lia).
      exfalso. apply HD. lia.
  - intros t' [_ HT']. eapply mixinv_mono; [exact HT'|]. cbv beta. intros; lia.
Qed.

Lemma reset_9 : forall e mb8 i j MI, 9 <= i -> reset_mixBijIn e mb8 i j MI = Ok MI.
Proof.
  intros e mb8 i j MI Hi. unfold reset_mixBijIn. apply wp_eq.
  apply wp_for_up with (I := fun _ M => M = MI); [lia|auto| |auto].
  intros x M _ _ ->. destruct (Nat.ltb_spec i 9); [lia|]. reflexivity.
Qed.
Lemma mix_tables_9 : forall e mb32 i j t, 9 <= i -> mix_tables e mb32 i j t = Ok t.
Proof.
  intros e mb32 i j t Hi. unfold mix_tables. apply wp_eq.
  apply wp_for_up with (I := fun _ M => M = t); [lia|auto| |auto].
  intros x M _ _ ->. destruct (Nat.ltb_spec i 9); [lia|]. reflexivity.
Qed.

Lemma mix_all_wp : forall e mb32 mb8 ek t0, pairs32 e mb32 -> pairs8 e mb8 -> bytes 176 ek ->
  mixinv e mb32 ek t0 (fun _ _ _ => False) t0 ->
  wp (mix_all e mb32 mb8 t0) (mixinv e mb32 ek t0 (fun _ _ _ => True)).
Proof.
  intros e mb32 mb8 ek t0 Hp32 Hp8 He HT0. unfold mix_all.
  apply wp_for_up with (I := fun i t => mixinv e mb32 ek t0 (fun i' _ _ => i' < i) t); [lia| | |].
  - eapply mixinv_mono; [exact HT0|]. cbv beta. intros; lia.
  - intros i t _ Hi HT.
    apply wp_for_up with (I := fun j t => mixinv e mb32 ek t0 (fun i' j' _ => i' < i \/ i' = i /\ j' / 4 < j) t); [lia| | |].
    + eapply mixinv_mono; [exact HT|]. cbv beta. intros; lia.
    + clear t HT. intros j t _ Hj HT. destruct (Nat.lt_ge_cases i 9) as [H9|H9].
      * apply wp_bind. eapply wp_mono; [apply reset_wp; eauto; apply HT|]. intros MI HI.
        apply mix_tables_wp; auto. destruct HT. split; cbn [tTBoxes tTyiBoxes tMixIn tTyiTables tMixOut tXor]; auto. apply HI.
      * rewrite reset_9 by auto. cbn [bind]. rewrite mix_tables_9 by auto. apply wp_ok.
        assert (E : mkaes (tTBoxes t) (tTyiTables t) (tTyiBoxes t) (tMixIn t) (tMixOut t) (tXor t) = t) by (destruct t; reflexivity).
        rewrite E. eapply mixinv_mono; [exact HT|]. cbv beta. intros i' j' x' Hi' Hj' Hx'. split; intros; lia.
    + intros t' HT'. eapply mixinv_mono; [exact HT'|]. cbv beta. intros i' j' x' Hi' Hj' Hx'.
      assert (j' / 4 < 4) by (apply Nat.div_lt_upper_bound; lia). lia.
  - intros t' HT'. eapply mixinv_mono; [exact HT'|]. cbv beta. intros; lia.
Qed.

(** ** computeTables *)

Definition tab_typed (t : aestab) : Prop :=
  dims3 10 16 256 (tTBoxes t) /\ dims2 4 256 (tTyiTables t) /\ dims3 9 16 256 (tTyiBoxes t) /\
  dims3 10 16 256 (tMixIn t) /\ dims3 10 16 256 (tMixOut t) /\ dims4 9 96 16 16 (tXor t).
Definition tab_for (e : endian) (ek : list N) (t : aestab) : Prop :=
  tab_typed t /\ tyi_ok (tTyiTables t) /\ xor_ok (tXor t) /\
  (forall i j x, i < 10 -> j < 16 -> x < 256 -> at3 0%N (tTBoxes t) i j x = tb ek i j x) /\
  exists mb32, pairs32 e mb32 /\
    forall i j x, i < 9 -> j < 16 -> x < 256 ->
      at3 0%N (tTyiBoxes t) i j x = tyt e mb32 ek i j x /\ at3 0%N (tMixOut t) i j x = mot e mb32 i j x.

Lemma computeTables_wp : forall e ek t s, bytes 176 ek -> tab_typed t ->
  wp (computeTables false e ek t s) (fun st => let '(ek', t', _) := st in shifted 10 ek ek' /\ tab_for e ek t').
Proof.
  intros e ek t s He (DTB & DTT & DTY & DMI & DMO & DX). unfold computeTables. apply wp_bind.
  eapply wp_mono; [apply gen_TyiTables_wp; auto|]. intros TT HTT. apply wp_bind.
  eapply wp_mono; [apply gen_bijections_wp; apply marr_fresh|]. intros [[mb32 mb8] s1] (M32 & M8 & P32 & P8).
  apply wp_bind. eapply wp_mono.
  { apply (gen_TBoxes_wp e mb8 ek (tMixOut t) (tXor t)); [split; auto|auto|].
    split; cbn [tTBoxes tTyiBoxes tMixIn tTyiTables tMixOut tXor]; auto; intros; contradiction. }
  intros [ek' t1] [HS HT]. cbn [fst snd] in HS, HT. apply wp_bind.
  eapply wp_mono.
  { apply (mix_all_wp e mb32 mb8 ek t1); [split; auto|split; auto|auto|].
    destruct HT as [TB TY MI TT1 EMO EX Htb Hty Hmi]. split; auto.
    - rewrite EMO. auto.
    - intros; contradiction. }
  intros t2 HM. apply wp_bind. eapply wp_mono.
  { apply gen_xorTable_wp. rewrite (mi_X _ _ _ _ _ _ HM), (ti_X _ _ _ _ _ _ _ _ HT). auto. }
  intros X HX. apply wp_ok. split; auto.
  destruct HM as [ETB ETT EX MTY MMI MMO Hd _]. destruct HT as [TB TY MI TT1 EMO EX1 Htb Hty Hmi].
  unfold tab_for, tab_typed. cbn [tTBoxes tTyiBoxes tMixIn tTyiTables tMixOut tXor]. rewrite ETB, ETT.
  split; [refine (conj TB (conj (proj1 TT1) (conj MTY (conj MMI (conj MMO (proj1 HX))))))|].
  split; [exact TT1|]. split; [exact HX|]. split; [auto|].
  exists mb32. split; [split; auto|]. auto.
Qed.

(** ** Encryption by tables *)

Lemma wbyte_tyi : forall y0 y1 y2 y3, (y0 < 256)%N -> (y1 < 256)%N -> (y2 < 256)%N -> (y3 < 256)%N ->
  let V := N.lxor (N.lxor (N.lxor (tyi 0 y0) (tyi 1 y1)) (tyi 2 y2)) (tyi 3 y3) in
  wbyte V 0 = xor4 (gmul 2 y0) (gmul 3 y1) y2 y3 /\ wbyte V 1 = xor4 (gmul 2 y1) (gmul 3 y2) y3 y0 /\
  wbyte V 2 = xor4 (gmul 2 y2) (gmul 3 y3) y0 y1 /\ wbyte V 3 = xor4 (gmul 2 y3) (gmul 3 y0) y1 y2.
Proof.
  intros y0 y1 y2 y3 H0 H1 H2 H3 V.
  assert (G : forall k y, (k < 256)%N -> (gmul k y < 256)%N) by (intros; apply gmul_bound; auto).
  unfold V, wbyte, tyi. rewrite !byte_lxor.
  change (N.of_nat (3 - 0)) with 3%N. change (N.of_nat (3 - 1)) with 2%N.
  change (N.of_nat (3 - 2)) with 1%N. change (N.of_nat (3 - 3)) with 0%N.
  destruct (byte_word (gmul 2 y0) y0 y0 (gmul 3 y0)) as (-> & -> & -> & ->); auto; [apply G; lia|apply G; lia|].
  destruct (byte_word (gmul 3 y1) (gmul 2 y1) y1 y1) as (-> & -> & -> & ->); auto; [apply G; lia|apply G; lia|].
  destruct (byte_word y2 (gmul 3 y2) (gmul 2 y2) y2) as (-> & -> & -> & ->); auto; [apply G; lia|apply G; lia|].
  destruct (byte_word y3 y3 (gmul 3 y3) (gmul 2 y3)) as (-> & -> & -> & ->); auto; [apply G; lia|apply G; lia|].
  unfold xor4. split; [xors|]. split; [xors|]. split; xors.
Qed.
Lemma mu_lxor4 : forall e w m a b c d, one w -> wfM w m ->
  N.lxor (N.lxor (N.lxor (mu e w m a) (mu e w m b)) (mu e w m c)) (mu e w m d)
  = mu e w m (N.lxor (N.lxor (N.lxor a b) c) d).
Proof. intros. rewrite !mu_lxor by auto. reflexivity. Qed.

Lemma table_round_wp : forall e ek t i s, tab_for e ek t -> bytes 176 ek -> i < 9 -> bytes 16 s ->
  table_round t i s = Ok (MixColumns (SubBytes (AddRoundKey (ShiftRows s) (ShiftRows (rks ek i))))).
Proof.
  intros e ek t i s0 HT He Hi Hs0. unfold table_round. rewrite shiftRows_ok by apply Hs0. cbn [bind].
  pose proof (ShiftRows_bytes _ Hs0) as Hs. remember (ShiftRows s0) as s eqn:Es. clear s0 Hs0 Es.
  set (Y := SubBytes (AddRoundKey s (ShiftRows (rks ek i)))).
  assert (BK : bytes 16 (ShiftRows (rks ek i))) by (apply ShiftRows_bytes, rks_bytes; auto; lia).
  assert (BY : bytes 16 Y) by (apply SubBytes_bytes, AddRoundKey_bytes; auto).
  assert (EY : forall k, k < 16 -> nth k Y 0%N = aes_sbox (N.lxor (nth k s 0%N) (sk ek i k))).
  { intros k Hk. unfold Y, SubBytes, AddRoundKey. assert (Dk : k / 4 < 4) by (apply Nat.div_lt_upper_bound; lia).
    rewrite nth_state, elt_state, !elt_mod by auto using mod4. reflexivity. }
  clearbody Y.
  destruct HT as ((DTB & DTT & DTY & DMI & DMO & DX) & _ & HX & _ & mb32 & Hp & HM).
  apply wp_eq.
  apply wp_for_up with (I := fun j s' => length s' = 16 /\ forall k, k < 16 ->
    nth k s' 0%N = if Nat.ltb (k / 4) j then nth k (MixColumns Y) 0%N else nth k s 0%N); [lia| | |].
  - split; [apply Hs|]. auto.
  - intros j s' _ Hj [L H]. cbv zeta.
    assert (CM : forall q, q < 4 -> (4 * j + q) mod 4 = q /\ (4 * j + q) / 4 = j) by (intros; apply col_mod; auto).
    assert (A : forall q, q < 4 -> (x <- aget s' (4 * j + q);; get3 (tTyiBoxes t) i (4 * j + q) (N.to_nat x))
      = Ok (mu e W32 (at3 [] mb32 i j 0) (tyi q (nth (4 * j + q) Y 0%N)))).
    { intros q Hq. destruct (CM q Hq) as [Cm Cd].
      rewrite (aget_ok _ s' _ 0%N) by lia. cbn [bind]. rewrite H by lia. rewrite Cd.
      destruct (Nat.ltb_spec j j); [lia|]. assert (B : (nth (4 * j + q) s 0 < 256)%N) by (apply nth_byte, Hs).
      rewrite (get3_ok N 0%N 9 16 256) by (auto; lia).
      destruct (HM i (4 * j + q) (N.to_nat (nth (4 * j + q) s 0%N))) as [-> _]; try lia.
      unfold tyt, ty, ent. rewrite Cm, Cd, N2Nat.id, EY by lia. reflexivity. }
    rewrite !A by lia. cbn [bind]. clear A.
    destruct Hp as [Mp Pp]. destruct (Pp i j ltac:(cbv beta; lia)) as (W0 & W1 & I01 & _).
    apply wp_bind. eapply wp_mono; [apply xor_nibbles_wp; auto|]. intros s1 [L1 H1].
    rewrite mu_lxor4 in H1 by (auto; reflexivity).
    assert (BYk : forall k, (nth k Y 0 < 256)%N) by (intros; apply nth_byte, BY).
    remember (N.lxor (N.lxor (N.lxor (tyi 0 (nth (4 * j + 0) Y 0%N)) (tyi 1 (nth (4 * j + 1) Y 0%N)))
      (tyi 2 (nth (4 * j + 2) Y 0%N))) (tyi 3 (nth (4 * j + 3) Y 0%N))) as V eqn:EV.
    assert (BV : (V < 2 ^ 32)%N). { rewrite EV. repeat apply lxor_bound; apply tyi_bound; auto. }
    pose proof (wbyte_tyi _ _ _ _ (BYk (4 * j + 0)) (BYk (4 * j + 1)) (BYk (4 * j + 2)) (BYk (4 * j + 3))) as WV.
    cbv zeta in WV. rewrite <- EV in WV. clear EV.
    destruct (mu_spec e W32 _ V eq_refl W0) as (_ & BW & _). specialize (I01 V BV).
    remember (mu e W32 (at3 [] mb32 i j 0) V) as W eqn:EW. clear EW. change (2 ^ N.of_nat (wb W32))%N with (2 ^ 32)%N in *.
    assert (A : forall q, q < 4 -> (x <- aget s1 (4 * j + q);; get3 (tMixOut t) i (4 * j + q) (N.to_nat x))
      = Ok (mu e W32 (at3 [] mb32 i j 1) (N.shiftl (wbyte W q) (N.of_nat (24 - 8 * q))))).
    { intros q Hq. destruct (CM q Hq) as [Cm Cd].
      rewrite (aget_ok _ s1 _ 0%N) by lia. cbn [bind]. rewrite H1 by lia. rewrite Cd, Cm, Nat.eqb_refl.
      assert (B : (wbyte W q < 256)%N) by apply byte_bound.
      rewrite (get3_ok N 0%N 10 16 256) by (auto; lia).
      destruct (HM i (4 * j + q) (N.to_nat (wbyte W q))) as [_ ->]; try lia.
      unfold mot. rewrite Cm, Cd, N2Nat.id. reflexivity. }
    rewrite !A by lia. cbn [bind]. clear A.
    eapply wp_mono; [apply xor_nibbles_wp; auto|]. intros s2 [L2 H2]. split; auto.
    rewrite mu_lxor4 in H2 by (auto; reflexivity).
    match type of H2 with context [mu e W32 _ ?a] => assert (E : a = W) end.
    { unfold wbyte. change (24 - 8 * 0) with 24. change (24 - 8 * 1) with 16. change (24 - 8 * 2) with 8. change (24 - 8 * 3) with 0.
      change (3 - 0) with 3. change (3 - 1) with 2. change (3 - 2) with 1. change (3 - 3) with 0.
      change (N.of_nat 24) with 24%N. change (N.of_nat 16) with 16%N. change (N.of_nat 8) with 8%N. change (N.of_nat 3) with 3%N.
      change (N.of_nat 2) with 2%N. change (N.of_nat 1) with 1%N. change (N.of_nat 0) with 0%N.
      rewrite N.shiftl_0_r. rewrite word_lxor by apply byte_bound. apply word_bytes. auto. }
    rewrite E, I01 in H2. clear E. intros k Hk. rewrite H2, H1, H by auto.
    pose proof (Nat.div_mod k 4 ltac:(lia)) as DK. pose proof (mod4 k) as MK.
    destruct (Nat.eqb_spec (k / 4) j) as [E|E].
    + destruct (Nat.ltb_spec (k / 4) (S j)); [|lia]. unfold MixColumns. rewrite nth_state by auto. rewrite E.
      destruct WV as (V0 & V1 & V2 & V3). unfold elt. revert MK. generalize (k mod 4). intros r Hr.
      rewrite !(Nat.add_comm _ (4 * j)).
      do 4 (destruct r as [|r]; [assumption|]). lia.
    + destruct (Nat.ltb_spec (k / 4) j), (Nat.ltb_spec (k / 4) (S j)); auto; lia.
  - intros s' [L H]. apply list_ext with (d := 0%N); [rewrite L; symmetry; apply length_state|].
    intros k Hk. rewrite L in Hk. rewrite H by auto.
    assert (k / 4 < 4) by (apply Nat.div_lt_upper_bound; lia). destruct (Nat.ltb_spec (k / 4) 4); [auto|lia].
Qed.

Lemma table_encrypt_wp : forall e ek t x o, tab_for e ek t -> bytes 176 ek -> bytes 16 x -> 16 <= length o ->
  wp (aes_128_table_encrypt t x o) (fun '(x', o') =>
    x' = aes_cipher (rks ek) x /\ written o o' 0 (aes_cipher (rks ek) x)).
Proof.
  intros e ek t x o HT He Hx Ho. unfold aes_128_table_encrypt. apply wp_bind.
  apply wp_for_up with (I := fun i y => y = Pst (rks ek) i x); [lia|reflexivity| |].
  - intros i y _ Hi ->. rewrite (table_round_wp e ek) by (auto; apply Pst_bytes; auto; intros; apply rks_bytes; auto; lia).
    reflexivity.
  - intros y Hy. assert (BP : bytes 16 y). { rewrite Hy. apply Pst_bytes; auto. intros. apply rks_bytes; auto; lia. }
    rewrite shiftRows_ok by apply BP. cbn [bind].
    pose proof (ShiftRows_bytes _ BP) as Bs. remember (ShiftRows y) as s eqn:Es.
    rewrite (fill16 (fun k => tb ek 9 k (N.to_nat (nth k s 0%N))) _ s
      (fun r c => N.lxor (elt (SubBytes (AddRoundKey s (ShiftRows (rks ek 9)))) r c) (elt (rks ek 10) r c))).
    + cbn [bind]. apply wp_bind. change (state _) with (AddRoundKey (SubBytes (AddRoundKey s (ShiftRows (rks ek 9)))) (rks ek 10)).
      rewrite Es, Hy. rewrite <- aes_cipher_P.
      assert (LC : length (aes_cipher (rks ek) x) = 16) by apply length_state.
      eapply wp_mono; [apply copy_wp; [rewrite LC; apply Nat.le_refl|exact Ho]|]. intros o' W.
      rewrite firstn_all2 in W by lia. apply wp_ok. split; [reflexivity|]. exact W.
    + apply Bs.
    + intros k cur Hk Lc H _. rewrite (proj1 Bs) in Lc. rewrite (aget_ok _ cur _ 0%N) by lia. cbn [bind]. rewrite H by lia.
      assert (B : (nth k s 0 < 256)%N) by (apply nth_byte, Bs).
      destruct HT as ((DTB & _) & _ & _ & HTB & _).
      rewrite (get3_ok N 0%N 10 16 256) by (auto; lia). rewrite HTB by lia. cbn [bind]. apply wp_aset; [lia|]. reflexivity.
    + intros k Hk. unfold tb, ent. cbn [Nat.eqb]. rewrite N2Nat.id.
      assert (Dk : k / 4 < 4) by (apply Nat.div_lt_upper_bound; lia).
      unfold SubBytes, AddRoundKey. rewrite !elt_state, !elt_mod by auto using mod4. reflexivity.
Qed.
