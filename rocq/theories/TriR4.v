(** Inversion of triangular matrices, second part: the tables. *)
From Coq Require Import Arith NArith ZArith List Bool Lia ZifyNat.
From Verif Require Import Base Spec LinAlg ModelM4ri SpecM4ri M4ri1 M4ri3 M4ri4 ModelM4ri2 SpecM4ri2 ModelTri ModelPle ModelTriR TriR1.
Import ListNotations.
#[local] Ltac Zify.zify_post_hook ::= Z.to_euclidean_division_equations.

Lemma idx_inj : forall s i y i' y', y < s -> y' < s -> i * s + y = i' * s + y' -> i = i' /\ y = y'.
Proof.
  intros s i y i' y' H H' E. assert (i = i').
  { destruct (lt_eq_lt_dec i i') as [[L|E']|L]; [exfalso; nia|exact E'|exfalso; nia]. }
  subst. split; [reflexivity|lia].
Qed.
Lemma idx_lt : forall s P i y, i < P -> y < s -> i * s + y < P * s.
Proof. intros. nia. Qed.

Section Tab.
Variables (C K r c k : nat) (beyond : option N) (M : mzd).
Hypothesis HM : okm k C M.
Hypothesis Hk1 : 1 <= k.
Hypothesis HkK : k <= K.
Hypothesis HK : K <= 16.
Hypothesis Hck : c + k <= C.
Hypothesis Hrc : r <= c.
Hypothesis Hb1 : c / 64 <= r / 64 + 1.
Hypothesis HZ : forall l y, l < k -> y < c + l -> bitat M l y = false.
Hypothesis HB : beyond <> None \/ Nat.odd (wwidth C) = true.

Let w := wwidth C.
Let s := stride w.
Definition tw (s : nat) (T : list N) (x y : nat) : N := nth (x * s + y) T 0%N.

Lemma stride_ge : w <= s /\ (Nat.odd w = true -> s = w + 1).
Proof.
  unfold s, stride. destruct (Nat.ltb_spec w 1); cbn [orb]; [split; [lia|]; intros H'; assert (w = 0) by lia; rewrite H0 in H'; discriminate|].
  rewrite <- Nat.negb_odd. destruct (Nat.odd w); cbn [negb]; split; lia || discriminate || (intros; reflexivity).
Qed.

Definition ftab (T : list N) : Prop :=
  length T = 2 ^ K * s /\ (forall x y b, x < 2 ^ K -> y < w -> tb (tw s T x y) b = true -> b < 64 /\ 64 * y + b < C) /\
  (forall y, y < w -> tw s T 0 y = 0%N).

Lemma tw_upd : forall T x y v x' y', length T = 2 ^ K * s -> x < 2 ^ K -> y < s -> y' < s ->
  tw s (upd T (x * s + y) v) x' y' = if Nat.eqb x' x && Nat.eqb y' y then v else tw s T x' y'.
Proof.
  intros T x y v x' y' HT Hx Hy Hy'. unfold tw. rewrite nth_upd by (rewrite HT; apply idx_lt; assumption).
  destruct (Nat.eqb_spec (x' * s + y') (x * s + y)) as [E|E].
  - apply idx_inj in E; [|assumption|assumption]. destruct E; subst. rewrite !Nat.eqb_refl. reflexivity.
  - destruct (Nat.eqb_spec x' x), (Nat.eqb_spec y' y); cbn [andb]; try reflexivity. subst. congruence.
Qed.

(** The combination of the rows of M by the x-th code word, and the bits added to it *)
Definition gsum (x y b : nat) : bool := xsum k (fun l => tb (N.of_nat (gord k x)) l && tb (rw (nth l (mrows M) []) y) b).
Definition own (x j : nat) : bool := Nat.leb c j && Nat.ltb j (c + k) && tb (N.of_nat (gord k x)) (j - c).

Lemma P2 : 1 <= 2 ^ k /\ 2 ^ k <= 2 ^ K.
Proof. split; [apply Nat.neq_0_lt_0, Nat.pow_nonzero; lia|apply Nat.pow_le_mono_r; lia]. Qed.
Lemma widths : r / 64 < w /\ c / 64 < w /\ (c + k - 1) / 64 < w.
Proof. unfold w. split; [|split]; apply wwidth_lt; lia. Qed.
Lemma mrow_wf : forall l, l < k -> wfr C (nth l (mrows M) []).
Proof. intros l Hl. apply HM. exact Hl. Qed.

Lemma gsum_0 : forall y b, gsum 0 y b = false.
Proof. intros. unfold gsum. rewrite gord_0. apply xsum_false. intros l _. change (N.of_nat 0) with 0%N. rewrite tb_0. reflexivity. Qed.
Lemma gsum_wf : forall x y b, gsum x y b = true -> b < 64 /\ 64 * y + b < C.
Proof.
  intros x y b H. destruct (Nat.lt_ge_cases b 64) as [Hb|Hb], (Nat.lt_ge_cases (64 * y + b) C) as [Hc|Hc]; [split; assumption| | |];
    exfalso; unfold gsum in H; rewrite xsum_false in H; try discriminate; intros l Hl;
    rewrite (wfr_tb C) by (try apply mrow_wf; try assumption; lia); apply andb_false_r.
Qed.

(** ** The first loop *)
Lemma rows_loop : forall T E ord inc (Q : list N * list nat -> Prop), ftab T -> length E = 2 ^ K -> nth 0 E 0 = 0 ->
  length ord = 2 ^ k -> length inc = 2 ^ k -> (forall i, i < 2 ^ k -> nth i ord 0 = gord k i) ->
  (forall x, 1 <= x -> x < 2 ^ k -> let d := nth (x - 1) inc 0 in d < k /\ Nat.divide (2 ^ d) x /\ ~ Nat.divide (2 ^ S d) x) ->
  (forall T' E', ftab T' -> length E' = 2 ^ K ->
     (forall x, x < 2 ^ k -> nth (gord k x) E' 0 = x /\ forall y b, r / 64 <= y -> y < w -> tb (tw s T' x y) b = gsum x y b) -> Q (T', E')) ->
  wp (for_up 1 (2 ^ k) (fun i '(T, E) =>
      T <- aset T (i * s + r / 64) 0%N ;;
      d <- aget inc (i - 1) ;; m <- aget (mrows M) (0 + d) ;;
      T <- for_up (c / 64) w (fun j T =>
             x <- aget m j ;; y <- aget T ((i - 1) * s + j) ;; aset T (i * s + j) (N.lxor x y)) T ;;
      o <- aget ord i ;; E <- aset E o i ;; Ok (T, E)) (T, E)) Q.
Proof.
  intros T E ord inc Q HT LE E0 Lo Li Eo Ei HQ. destruct P2 as [HP0 HP]. destruct widths as (Wr & Wc & _). destruct stride_ge as [Sw _].
  apply (wp_for_up _ (fun i '(T, E) => ftab T /\ length E = 2 ^ K /\
     forall x, x < i -> nth (gord k x) E 0 = x /\ forall y b, r / 64 <= y -> y < w -> tb (tw s T x y) b = gsum x y b)).
  - exact HP0.
  - split; [exact HT|]. split; [exact LE|]. intros x Hx. assert (x = 0) by lia. subst x. rewrite gord_0. split; [exact E0|].
    intros y b _ Hy. rewrite gsum_0. destruct HT as (_ & _ & Z). rewrite Z by exact Hy. apply tb_0.
  - clear T E HT LE E0 HQ. intros i [T E] Hi1 Hi2 ((LT & WT & ZT) & LE & HS).
    apply wp_bind, wp_aset; [rewrite LT; apply idx_lt; lia|]. apply wp_bind, (wp_aget _ _ _ 0); [lia|].
    destruct (Ei i Hi1 Hi2) as (D1 & D2 & D3). set (d := nth (i - 1) inc 0) in *.
    apply wp_bind. rewrite Nat.add_0_l. apply (wp_aget_row k C); [exact HM|exact D1|]. assert (Wm := mrow_wf d D1). set (m := nth d (mrows M) []) in *.
    apply wp_bind. apply (wp_for_up _ (fun t T' => length T' = length T /\ forall x y, x < 2 ^ K -> y < s ->
      tw s T' x y = if Nat.eqb x i && Nat.leb (c / 64) y && Nat.ltb y t then N.lxor (rw m y) (tw s T (i - 1) y)
                    else if Nat.eqb x i && Nat.eqb y (r / 64) then 0%N else tw s T x y)).
    + lia.
    + split; [apply length_upd|]. intros x y Hx Hy. rewrite tw_upd by (assumption || lia).
      destruct (Nat.leb_spec (c / 64) y), (Nat.ltb_spec y (c / 64)); try lia; rewrite ?andb_false_r; cbn [andb]; rewrite ?andb_false_r; reflexivity.
    + intros j T' Hj1 Hj2 [LT' ET']. apply wp_bind, (wp_aget _ _ _ 0%N); [rewrite (proj1 Wm); exact Hj2|]. fold (rw m j).
      apply wp_bind, (wp_aget _ _ _ 0%N); [rewrite LT', LT; apply idx_lt; lia|]. fold (tw s T' (i - 1) j).
      rewrite ET' by lia. destruct (Nat.eqb_spec (i - 1) i); [lia|]. cbn [andb].
      apply wp_aset; [rewrite LT', LT; apply idx_lt; lia|]. split; [rewrite length_upd; exact LT'|]. intros x y Hx Hy.
      rewrite tw_upd by (congruence || lia). destruct (Nat.eqb_spec x i) as [->|]; cbn [andb].
      * destruct (Nat.eqb_spec y j) as [->|].
        -- destruct (Nat.leb_spec (c / 64) j), (Nat.ltb_spec j (S j)); try lia. reflexivity.
        -- rewrite ET' by assumption. rewrite Nat.eqb_refl. cbn [andb]. destruct (Nat.ltb_spec y j), (Nat.ltb_spec y (S j)); try lia; reflexivity.
      * rewrite ET' by assumption. destruct (Nat.eqb_spec x i); [lia|]. reflexivity.
    + intros T' [LT' ET']. apply wp_bind, (wp_aget _ _ _ 0); [lia|]. rewrite Eo by lia. assert (Hg := gord_lt k i). apply wp_bind, wp_aset; [lia|]. apply wp_ok.
      assert (SI : forall y b, xorb (tb (rw m y) b) (gsum (i - 1) y b) = gsum i y b).
      { intros y b. unfold gsum.
        rewrite (xsum_ext k (fun l => tb (N.of_nat (gord k i)) l && _)
             (fun l => xorb (tb (N.of_nat (gord k (i - 1))) l && tb (rw (nth l (mrows M) []) y) b) (Nat.eqb l d && tb (rw (nth l (mrows M) []) y) b))).
        - rewrite xsum_xorb, (xsum_single k d (fun l => Nat.eqb l d && tb (rw (nth l (mrows M) []) y) b)); [|exact D1|].
          + rewrite Nat.eqb_refl. cbn [andb]. apply xorb_comm.
          + intros l _ Hl. destruct (Nat.eqb_spec l d); [lia|reflexivity].
        - intros l _. rewrite !tb_gord. rewrite <- (gray_step k i d Hi1 Hi2 D2 D3 l).
          destruct (tb (gray_code (N.of_nat i) k) l), (tb (gray_code (N.of_nat (i - 1)) k) l), (tb (rw (nth l (mrows M) []) y) b); reflexivity. }
      assert (TI : forall y b, r / 64 <= y -> y < w -> tb (tw s T' i y) b = gsum i y b).
      { intros y b Hy1 Hy2. rewrite ET' by lia. rewrite Nat.eqb_refl. cbn [andb]. destruct (Nat.ltb_spec y w); [|lia]. rewrite andb_true_r.
        destruct (Nat.leb_spec (c / 64) y).
        - rewrite tb_lxor, (proj2 (HS (i - 1) ltac:(lia))) by assumption. apply SI.
        - destruct (Nat.eqb_spec y (r / 64)); [|lia]. rewrite tb_0. symmetry. apply xsum_false. intros l Hl.
          destruct (Nat.lt_ge_cases b 64) as [Hb|Hb]; [|rewrite (wfr_tb C) by (try apply mrow_wf; assumption || lia); apply andb_false_r].
          rewrite <- rowbit_rw by exact Hb. change (rowbit (nth l (mrows M) []) (64 * y + b)) with (bitat M l (64 * y + b)). rewrite HZ by lia. apply andb_false_r. }
      split; [|split].
      * split; [lia|]. split.
        -- intros x y b Hx Hy Hb. rewrite ET' in Hb by lia. destruct (Nat.eqb_spec x i) as [->|]; cbn [andb] in Hb; [|apply WT in Hb; assumption].
           destruct (Nat.leb (c / 64) y && Nat.ltb y w) eqn:Ey; cbn [andb] in Hb.
           ++ rewrite tb_lxor in Hb. destruct (tb (rw m y) b) eqn:Em; [apply Wm in Em; exact Em|].
              destruct (tb (tw s T (i - 1) y) b) eqn:E1; [apply WT in E1; [exact E1|lia|exact Hy]|discriminate].
           ++ destruct (Nat.eqb y (r / 64)); [rewrite tb_0 in Hb; discriminate|]. apply WT in Hb; assumption.
        -- intros y Hy. rewrite ET' by lia. destruct (Nat.eqb_spec 0 i); [lia|]. cbn [andb]. apply ZT. exact Hy.
      * rewrite length_upd. exact LE.
      * intros x Hx. rewrite nth_upd by lia. destruct (Nat.eq_dec x i) as [->|Hne].
        -- rewrite Nat.eqb_refl. split; [reflexivity|exact TI].
        -- destruct (Nat.eqb_spec (gord k x) (gord k i)) as [Eg|_]; [apply gord_inj in Eg; lia|].
           destruct (HS x ltac:(lia)) as [F1 F2]. split; [exact F1|]. intros y b Hy1 Hy2. rewrite ET' by lia. destruct (Nat.eqb_spec x i); [lia|]. cbn [andb]. apply F2; assumption.
  - intros [T' E'] (H1 & H2 & H3). apply HQ; assumption.
Qed.

(** ** Bits of a row of T *)
Lemma flat_xor_ok : forall T i v (Q : list N -> Prop), length T = 2 ^ K * s -> i < 2 ^ K -> (forall b, k <= b -> tb v b = false) ->
  (forall T', length T' = length T -> (forall x y, x < 2 ^ K -> y < s -> x <> i -> tw s T' x y = tw s T x y) ->
     (forall y b, y < s -> tb (tw s T' i y) b = xorb (tb (tw s T i y) b) (Nat.ltb b 64 && (Nat.leb c (64 * y + b) && Nat.ltb (64 * y + b) (c + k) && tb v (64 * y + b - c)))) -> Q T') ->
  wp (flat_xor_bits T (i * s) c k v) Q.
Proof.
  intros T i v Q LT Hi Hv HQ. destruct widths as (_ & Wc & Wk). destruct stride_ge as [Sw _]. unfold flat_xor_bits. cbv zeta.
  assert (L1 := idx_lt s (2 ^ K) i (c / 64) Hi ltac:(lia)).
  apply wp_bind, (wp_aget _ _ _ 0%N); [lia|]. fold (tw s T i (c / 64)). apply wp_bind, wp_shl; [lia|]. intros a Ha.
  apply wp_bind, wp_aset; [lia|].
  assert (Ha' : forall b, tb a b = Nat.ltb b 64 && (Nat.leb c (64 * (c / 64) + b) && tb v (64 * (c / 64) + b - c))).
  { intros b. rewrite Ha. replace (64 * (c / 64) + b - c) with (b - c mod 64) by lia.
    destruct (Nat.leb_spec (c mod 64) b), (Nat.leb_spec c (64 * (c / 64) + b)), (Nat.ltb_spec b 64); try lia; cbn [andb]; rewrite ?andb_true_r, ?andb_false_r; reflexivity. }
  assert (Hcut : forall j, c + k <= j -> tb v (j - c) = false) by (intros j Hj; apply Hv; lia).
  destruct (Nat.ltb_spec (64 - c mod 64) k) as [Hs|Hs].
  - assert (L2 := idx_lt s (2 ^ K) i (c / 64 + 1) Hi ltac:(lia)). rewrite <- Nat.add_assoc.
    apply wp_bind, (wp_aget _ _ _ 0%N); [rewrite length_upd; lia|]. fold (tw s (upd T (i * s + c / 64) (N.lxor (tw s T i (c / 64)) a)) i (c / 64 + 1)).
    rewrite tw_upd by (assumption || lia). destruct (Nat.eqb_spec (c / 64 + 1) (c / 64)); [lia|]. rewrite andb_false_r.
    apply wp_bind, wp_shr; [lia|]. intros a2 Ha2. apply wp_aset; [rewrite length_upd; lia|]. apply HQ.
    + rewrite !length_upd. reflexivity.
    + intros x y Hx Hy Hne. rewrite tw_upd by (rewrite ?length_upd; assumption || lia). rewrite tw_upd by (assumption || lia).
      destruct (Nat.eqb_spec x i); [lia|reflexivity].
    + intros y b Hy. rewrite tw_upd by (rewrite ?length_upd; assumption || lia). rewrite tw_upd by (assumption || lia). rewrite Nat.eqb_refl. cbn [andb].
      destruct (Nat.eqb_spec y (c / 64 + 1)) as [->|H1].
      * rewrite tb_lxor, Ha2. f_equal. replace (64 * (c / 64 + 1) + b - c) with (b + (64 - c mod 64)) by lia.
        destruct (Nat.leb_spec c (64 * (c / 64 + 1) + b)); [|lia]. cbn [andb].
        destruct (Nat.ltb_spec b 64), (Nat.ltb_spec (64 * (c / 64 + 1) + b) (c + k)); cbn [andb]; try reflexivity; apply Hv; lia.
      * destruct (Nat.eqb_spec y (c / 64)) as [->|H2].
        -- rewrite tb_lxor, Ha'. f_equal. destruct (Nat.ltb_spec b 64); cbn [andb]; [|reflexivity]. destruct (Nat.leb c (64 * (c / 64) + b)); cbn [andb]; [|reflexivity].
           destruct (Nat.ltb_spec (64 * (c / 64) + b) (c + k)); cbn [andb]; [reflexivity|]. apply Hcut. lia.
        -- destruct (Nat.ltb_spec b 64); cbn [andb]; [|rewrite xorb_false_r; reflexivity].
           destruct (Nat.leb_spec c (64 * y + b)), (Nat.ltb_spec (64 * y + b) (c + k)); try lia; cbn [andb]; rewrite xorb_false_r; reflexivity.
  - apply wp_ok, HQ.
    + apply length_upd.
    + intros x y Hx Hy Hne. rewrite tw_upd by (assumption || lia). destruct (Nat.eqb_spec x i); [lia|reflexivity].
    + intros y b Hy. rewrite tw_upd by (assumption || lia). rewrite Nat.eqb_refl. cbn [andb]. destruct (Nat.eqb_spec y (c / 64)) as [->|H2].
      * rewrite tb_lxor, Ha'. f_equal. destruct (Nat.ltb_spec b 64); cbn [andb]; [|reflexivity]. destruct (Nat.leb c (64 * (c / 64) + b)); cbn [andb]; [|reflexivity].
        destruct (Nat.ltb_spec (64 * (c / 64) + b) (c + k)); cbn [andb]; [reflexivity|]. apply Hcut. lia.
      * destruct (Nat.ltb_spec b 64); cbn [andb]; [|rewrite xorb_false_r; reflexivity].
        destruct (Nat.leb_spec c (64 * y + b)), (Nat.ltb_spec (64 * y + b) (c + k)); try lia; cbn [andb]; rewrite xorb_false_r; reflexivity.
Qed.

Lemma flat_read_ok : forall T i (Q : N -> Prop), length T = 2 ^ K * s -> i < 2 ^ K ->
  (forall y b, y < w -> 64 <= b -> tb (tw s T i y) b = false) ->
  (forall v, (forall b, b < 64 -> r + b < C -> tb v b = tb (tw s T i ((r + b) / 64)) ((r + b) mod 64)) -> Q v) ->
  wp (flat_read_64 beyond T (i * s) r) Q.
Proof.
  intros T i Q LT Hi Hw HQ. destruct widths as (Wr & _ & _). destruct stride_ge as [Sw So]. unfold flat_read_64, flat_get. cbv zeta.
  assert (L1 := idx_lt s (2 ^ K) i (r / 64) Hi ltac:(lia)).
  destruct (Nat.eqb_spec (r mod 64) 0) as [E0|E0].
  - destruct (Nat.ltb_spec (i * s + r / 64) (length T)); [|lia]. apply (wp_aget _ _ _ 0%N); [lia|]. fold (tw s T i (r / 64)). apply HQ.
    intros b Hb _. replace ((r + b) / 64) with (r / 64) by lia. replace ((r + b) mod 64) with b by lia. reflexivity.
  - assert (G : forall (Q' : N -> Prop), (forall hi, (r / 64 + 1 < w -> hi = tw s T i (r / 64 + 1)) -> Q' hi) ->
      wp (if Nat.ltb (i * s + r / 64 + 1) (length T) then aget T (i * s + r / 64 + 1) else match beyond with Some v => Ok v | None => UB end) Q').
    { intros Q' HQ'. destruct (Nat.ltb_spec (i * s + r / 64 + 1) (length T)) as [HL|HL].
      - apply (wp_aget _ _ _ 0%N); [lia|]. apply HQ'. intros _. unfold tw. rewrite Nat.add_assoc. reflexivity.
      - destruct HB as [HB'|HB'].
        + destruct beyond as [v|]; [|congruence]. apply wp_ok, HQ'. intros Hlt. exfalso. assert (L2 := idx_lt s (2 ^ K) i (r / 64 + 1) Hi ltac:(lia)). lia.
        + exfalso. specialize (So HB'). assert (L2 := idx_lt s (2 ^ K) i (r / 64 + 1) Hi ltac:(lia)). lia. }
    apply wp_bind, G. intros hi Hhi. destruct (Nat.ltb_spec (i * s + r / 64) (length T)); [|lia].
    apply wp_bind, (wp_aget _ _ _ 0%N); [lia|]. fold (tw s T i (r / 64)). apply wp_bind, wp_shl; [lia|]. intros a Ha. apply wp_bind, wp_shr; [lia|]. intros a2 Ha2.
    apply wp_ok, HQ. intros b Hb HbC. rewrite tb_lor, Ha, Ha2. destruct (Nat.ltb_spec b 64); [|lia]. rewrite andb_true_r.
    destruct (Nat.leb_spec (64 - r mod 64) b); cbn [andb orb].
    + assert (Hw2 : r / 64 + 1 < w) by (pose proof (wwidth_lt C (r + b) HbC); fold w in H1; lia).
      rewrite (Hhi Hw2), (Hw (r / 64) (b + r mod 64)) by lia. rewrite orb_false_r. replace ((r + b) / 64) with (r / 64 + 1) by lia.
      replace ((r + b) mod 64) with (b - (64 - r mod 64)) by lia. reflexivity.
    + replace ((r + b) / 64) with (r / 64) by lia. replace ((r + b) mod 64) with (b + r mod 64) by lia. reflexivity.
Qed.

(** ** The table *)
Definition hsum (g : fmat) (x j : nat) : bool := xsum k (fun l => tb (N.of_nat (gord k x)) l && xorb (g l j) (Nat.eqb j (c + l))).
Definition pletab (g : fmat) (t : ple_table) : Prop :=
  let '(T, E, B) := t in ftab T /\ length E = 2 ^ K /\ length B = 2 ^ K /\
  forall x, x < 2 ^ k -> nth (gord k x) E 0 = x /\
    (forall j, 64 * (r / 64) <= j -> j < C -> tb (tw s T x (j / 64)) (j mod 64) = hsum g x j) /\
    (forall b, b < 64 -> r + b < C -> tb (nth x B 0%N) b = hsum g x (r + b)).

Lemma hsum_eq : forall x j, j < C -> hsum (bitat M) x j = xorb (gsum x (j / 64) (j mod 64)) (own x j).
Proof.
  intros x j Hj. unfold hsum, gsum, own.
  rewrite (xsum_ext k _ (fun l => xorb (tb (N.of_nat (gord k x)) l && tb (rw (nth l (mrows M) []) (j / 64)) (j mod 64)) (tb (N.of_nat (gord k x)) l && Nat.eqb j (c + l)))).
  - rewrite xsum_xorb. f_equal. destruct (Nat.leb_spec c j), (Nat.ltb_spec j (c + k)); cbn [andb].
    + rewrite (xsum_single k (j - c)); [replace (c + (j - c)) with j by lia; rewrite Nat.eqb_refl; apply andb_true_r|lia|].
      intros l Hl Hne. destruct (Nat.eqb_spec j (c + l)); [lia|apply andb_false_r].
    + apply xsum_false. intros l Hl. destruct (Nat.eqb_spec j (c + l)); [lia|apply andb_false_r].
    + apply xsum_false. intros l Hl. destruct (Nat.eqb_spec j (c + l)); [lia|apply andb_false_r].
    + apply xsum_false. intros l Hl. destruct (Nat.eqb_spec j (c + l)); [lia|apply andb_false_r].
  - intros l Hl. unfold bitat. rewrite rowbit_tb. destruct (tb (N.of_nat (gord k x)) l); cbn [andb]; reflexivity.
Qed.

Lemma make_table_trtri_ok : forall T E B (Q : ple_table -> Prop), ftab T -> length E = 2 ^ K -> length B = 2 ^ K ->
  (forall t, pletab (bitat M) t -> Q t) -> wp (make_table_trtri beyond M 0 c k (T, E, B) r) Q.
Proof.
  intros T E B Q HT LE LB HQ. destruct P2 as [HP0 HP]. destruct widths as (Wr & Wc & _). destruct stride_ge as [Sw _].
  unfold make_table_trtri. rewrite (okm_width k C M HM). fold w. fold s. apply wp_bind, wp_codebook; [exact Hk1|lia|]. intros ord inc Lo Li Eo Ei.
  apply wp_bind, wp_aset; [lia|]. apply wp_bind. apply rows_loop; try assumption; [rewrite length_upd; exact LE|rewrite nth_upd by lia; reflexivity|].
  clear T E HT LE. intros T E HT LE HS. apply wp_bind, wp_aset; [lia|]. apply wp_bind.
  apply (wp_for_up _ (fun i '(T, B) => ftab T /\ length B = 2 ^ K /\ forall x, x < 2 ^ k ->
     (forall y b, r / 64 <= y -> y < w -> tb (tw s T x y) b = xorb (gsum x y b) (Nat.ltb x i && Nat.ltb b 64 && own x (64 * y + b))) /\
     (x < i -> forall b, b < 64 -> r + b < C -> tb (nth x B 0%N) b = hsum (bitat M) x (r + b)))).
  - exact HP0.
  - split; [exact HT|]. split; [rewrite length_upd; exact LB|]. intros x Hx.
    assert (O0 : forall j, own 0 j = false) by (intros j; unfold own; rewrite gord_0; change (N.of_nat 0) with 0%N; rewrite tb_0; apply andb_false_r).
    split.
    + intros y b Hy1 Hy2. rewrite (proj2 (HS x Hx)) by assumption. destruct (Nat.ltb_spec x 1); cbn [andb]; [|rewrite xorb_false_r; reflexivity].
      assert (x = 0) by lia. subst x. rewrite O0, andb_false_r, xorb_false_r. reflexivity.
    + intros H b Hb HbC. assert (x = 0) by lia. subst x. rewrite nth_upd by lia. cbn [Nat.eqb]. rewrite tb_0, hsum_eq, gsum_0, O0 by exact HbC. reflexivity.
  - clear T B HT LB HS HQ. intros i [T B] Hi1 Hi2 ((LT & WT & ZT) & LB & HS). apply wp_bind, (wp_aget _ _ _ 0); [lia|]. rewrite Eo by lia.
    apply wp_bind, flat_xor_ok; [exact LT|lia| |].
    { intros b Hb. rewrite tb_gord, tb_gray. destruct (Nat.ltb_spec b k); [lia|]. cbn [andb]. rewrite ?andb_false_l, ?andb_false_r. reflexivity. }
    intros T' LT' ET' EI'.
    assert (TI : forall y b, r / 64 <= y -> y < w -> tb (tw s T' i y) b = xorb (gsum i y b) (Nat.ltb b 64 && own i (64 * y + b))).
    { intros y b Hy1 Hy2. rewrite EI' by lia. rewrite (proj1 (HS i Hi2)) by assumption. destruct (Nat.ltb_spec i i); [lia|]. cbn [andb]. rewrite xorb_false_r. reflexivity. }
    assert (WI : forall y b, y < w -> tb (tw s T' i y) b = true -> b < 64 /\ 64 * y + b < C).
    { intros y b Hy H. rewrite EI' in H by lia. destruct (tb (tw s T i y) b) eqn:E1; [apply WT in E1; [exact E1|lia|exact Hy]|]. cbn [xorb] in H.
      destruct (Nat.ltb_spec b 64); [|discriminate]. destruct (Nat.ltb_spec (64 * y + b) (c + k)); [split; lia|]. rewrite andb_false_r in H. discriminate. }
    apply wp_bind, flat_read_ok; [congruence|lia| |].
    { intros y b Hy Hb. destruct (tb (tw s T' i y) b) eqn:E1; [|reflexivity]. apply WI in E1; [lia|exact Hy]. }
    intros v Hv. apply wp_bind, wp_aset; [lia|]. apply wp_ok. split; [|split].
    + split; [congruence|]. split.
      * intros x y b Hx Hy H. destruct (Nat.eq_dec x i) as [->|Hne]; [apply WI; assumption|]. rewrite ET' in H by (assumption || lia). apply WT in H; assumption.
      * intros y Hy. rewrite ET' by lia. apply ZT. exact Hy.
    + rewrite length_upd. exact LB.
    + intros x Hx. destruct (Nat.eq_dec x i) as [->|Hne].
      * split.
        -- intros y b Hy1 Hy2. rewrite TI by assumption. destruct (Nat.ltb_spec i (S i)); [reflexivity|lia].
        -- intros _ b Hb HbC. rewrite nth_upd by lia. rewrite Nat.eqb_refl. rewrite Hv by assumption.
           rewrite TI by (try (pose proof (wwidth_lt C (r + b) HbC); assumption); lia). rewrite hsum_eq by exact HbC.
           destruct (Nat.ltb_spec ((r + b) mod 64) 64); [|lia]. cbn [andb]. do 2 f_equal. lia.
      * destruct (HS x Hx) as [F1 F2]. split.
        -- intros y b Hy1 Hy2. rewrite ET' by lia. rewrite F1 by assumption. destruct (Nat.ltb_spec x i), (Nat.ltb_spec x (S i)); try lia; reflexivity.
        -- intros H b Hb HbC. rewrite nth_upd by lia. destruct (Nat.eqb_spec x i); [lia|]. apply F2; [lia|assumption|assumption].
  - intros [T' B'] (HT' & LB' & HS'). apply wp_ok, HQ. split; [exact HT'|]. split; [exact LE|]. split; [exact LB'|].
    intros x Hx. split; [apply HS; exact Hx|]. destruct (HS' x Hx) as [F1 F2]. split.
    + intros j Hj HjC. rewrite F1 by (try (pose proof (wwidth_lt C j HjC); assumption); lia). rewrite hsum_eq by exact HjC.
      destruct (Nat.ltb_spec x (2 ^ k)); [|lia]. destruct (Nat.ltb_spec (j mod 64) 64); [|lia]. cbn [andb]. do 2 f_equal. lia.
    + intros b Hb HbC. apply F2; assumption.
Qed.
End Tab.
