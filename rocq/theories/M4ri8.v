(** mzd_inv_m4ri, and what the pivots say about rank and inverse. *)
From Coq Require Import Arith NArith ZArith List Bool Lia ZifyNat.
From Verif Require Import Base Spec LinAlg Elim Gauss SpecRank Rank ModelM4ri SpecM4ri M4ri1 M4ri2 M4ri3 M4ri4 M4ri5 M4ri6 M4ri7.
Import ListNotations.
#[local] Ltac Zify.zify_post_hook ::= Z.to_euclidean_division_equations.

Lemma pinv_rref : forall R C B r q, r <= R -> pinv true R C B r q -> rref R C B r.
Proof.
  intros R C B r q Hr (P1 & P2 & P3 & P4 & P5 & P6). split; [exact Hr|]. exists q.
  refine (conj P1 (conj P2 (conj P3 (conj _ P6)))). intros l i Hl Hi.
  destruct (Nat.eqb_spec i l) as [->|]; [apply P4; auto|apply P5; auto].
Qed.

Lemma pinv_echelon : forall full R C B r q, r <= R -> pinv full R C B r q -> echelon R C B r.
Proof.
  intros full R C B r q Hr (P1 & P2 & P3 & P4 & P5 & P6). split; [exact Hr|]. exists q.
  exact (conj P1 (conj P2 (conj P3 (conj P4 P6)))).
Qed.

(** Validity of a concrete matrix *)
Definition validb (R C : nat) (M : mzd) : bool :=
  Nat.eqb (mnrows M) R && Nat.eqb (mncols M) C && Nat.eqb (length (mrows M)) R &&
  forallb (fun row => Nat.eqb (length row) (wwidth C) && forallb (fun w => N.ltb w (2 ^ 64)) row &&
    forallb (fun j => negb (rowbit row j)) (seq C (64 * wwidth C - C))) (mrows M).
Lemma validb_ok : forall R C M, validb R C M = true -> valid R C M.
Proof.
  intros R C M H. unfold validb in H. repeat (apply andb_true_iff in H as [H ?]).
  apply Nat.eqb_eq in H. repeat match goal with H : Nat.eqb _ _ = true |- _ => apply Nat.eqb_eq in H end.
  refine (conj H (conj _ (conj _ _))); auto. rewrite forallb_forall in H0. intros row Hrow. specialize (H0 row Hrow).
  repeat (apply andb_true_iff in H0 as [H0 ?]). apply Nat.eqb_eq in H0. rewrite forallb_forall in *.
  refine (conj H0 (conj _ _)).
  - intros w Hw. apply N.ltb_lt. auto.
  - intros j Hj. destruct (Nat.lt_ge_cases j (64 * wwidth C)).
    + apply negb_true_iff, H3, in_seq. lia.
    + unfold rowbit. rewrite nth_overflow; [apply N.bits_0|]. rewrite H0. lia.
Qed.

Lemma echelon_k_ok : forall R C M k, okm R C M ->
  (k = 0 /\ (4 <= R \/ (6 * N.of_nat C <= 524288)%N)) \/ (1 <= k /\ k <= 10) ->
  1 <= echelon_k M k /\ echelon_k M k <= 10.
Proof.
  intros R C M k (H1 & H2 & _) [[-> H]|H]; unfold echelon_k; [|destruct (Nat.eqb_spec k 0); lia].
  cbn [Nat.eqb]. rewrite H1, H2.
  set (o := opt_k R C). assert (Ho : 1 <= o) by (unfold o, opt_k; lia).
  assert (Ho1 : (4 <= R /\ 4 <= C -> 2 <= o) /\ (R <= 3 \/ C <= 3 -> o = 1)).
  { unfold o, opt_k, log2_floor. split.
    - intros H'. assert (2 <= Nat.log2 (Nat.min R C)) by (apply (Nat.log2_le_pow2 _ 2); [lia|change (2 ^ 2) with 4; lia]). lia.
    - intros H'. assert (L : Nat.log2 (Nat.min R C) <= 1).
      { transitivity (Nat.log2 3); [apply Nat.log2_le_mono; lia|reflexivity]. }
      lia. }
  clearbody o. destruct (Nat.leb_spec 7 o).
  - destruct (N.ltb _ _); lia.
  - match goal with |- context [N.ltb ?a ?b] => destruct (N.ltb_spec a b) as [Hl|Hl] end; [|lia].
    assert (o <> 1); [|lia]. intros ->. change (2 ^ N.of_nat 1)%N with 2%N in Hl. lia.
Qed.

(** ** mzd_set_ui *)

Lemma wp_set_ui_one : forall rs off nr nc (Q : list (list N) -> Prop), 0 < nc -> nr <= length rs ->
  (forall i, i < nr -> off + wwidth nc <= length (nth i rs [])) ->
  (forall rs', length rs' = length rs ->
     (forall i, i < nr -> length (nth i rs' []) = length (nth i rs []) /\
        forall k b, b < 64 -> tb (rw (nth i rs' []) k) b =
          if Nat.leb off k && Nat.ltb (64 * (k - off) + b) nc then Nat.eqb (64 * (k - off) + b) i
          else tb (rw (nth i rs []) k) b) ->
     (forall i k b, i < nr -> 64 <= b -> tb (rw (nth i rs' []) k) b = true -> tb (rw (nth i rs []) k) b = true) -> Q rs') ->
  wp (set_ui_one rs off nr nc) Q.
Proof.
  intros rs off nr nc Q Hnc HL HW HQ. unfold set_ui_one. cbv zeta. set (w := wwidth nc) in *.
  assert (Hw : 0 < w) by (apply wwidth_pos; exact Hnc).
  assert (TM : forall b, tb (left_bitmask (nc mod 64)) b = Nat.ltb b 64 && Nat.ltb (64 * (w - 1) + b) nc).
  { intros b. apply (tb_high 0 nc (mzd_init 0 nc)); [apply init_ok|lia]. }
  apply wp_bind.
  apply (wp_for_up _ (fun t rs' => length rs' = length rs /\
     (forall i, t <= i -> nth i rs' [] = nth i rs []) /\
     (forall i, i < t -> length (nth i rs' []) = length (nth i rs []) /\
        forall k b, tb (rw (nth i rs' []) k) b =
          if Nat.leb off k && Nat.ltb k (off + w) && (Nat.ltb k (off + (w - 1)) || (Nat.ltb b 64 && Nat.ltb (64 * (w - 1) + b) nc)) then false
          else tb (rw (nth i rs []) k) b))); [lia| | |].
  - refine (conj eq_refl (conj (fun _ _ => eq_refl) _)). intros; lia.
  - intros t rs' _ Ht (H1 & H2 & H3). assert (L := HW t Ht).
    apply wp_bind, (wp_aget _ _ _ []); [lia|]. rewrite H2 by lia.
    apply wp_bind. apply (wp_row_loop _ _ _ (fun _ _ => 0%N)); [lia|intros; apply wp_ok; reflexivity|].
    intros n Ln En. apply wp_bind, (wp_aget _ _ _ 0%N); [lia|]. fold (rw n (off + (w - 1))).
    apply wp_bind, wp_aset; [lia|]. apply wp_aset; [lia|].
    refine (conj _ (conj _ _)).
    + rewrite length_upd. exact H1.
    + intros i Hi. rewrite nth_upd by lia. destruct (Nat.eqb_spec i t); [lia|]. apply H2. lia.
    + intros i Hi. rewrite nth_upd by lia. destruct (Nat.eqb_spec i t) as [->|]; [|apply H3; lia].
      split; [rewrite length_upd; exact Ln|]. intros k b. rewrite rw_upd by lia.
      destruct (Nat.eqb_spec k (off + (w - 1))) as [->|Hk].
      * rewrite tb_ldiff, En, TM.
        destruct (Nat.leb_spec off (off + (w - 1))), (Nat.ltb_spec (off + (w - 1)) (off + (w - 1))), (Nat.ltb_spec (off + (w - 1)) (off + w)); try lia.
        cbn [andb orb]. destruct (Nat.ltb b 64 && Nat.ltb (64 * (w - 1) + b) nc); cbn [negb]; [apply andb_false_r|apply andb_true_r].
      * rewrite En. destruct (Nat.leb_spec off k), (Nat.ltb_spec k (off + (w - 1))), (Nat.ltb_spec k (off + w)); try lia; cbn [andb orb]; try apply tb_0; reflexivity.
  - intros rs1 (H1 & _ & H3).
    apply (wp_for_up _ (fun t rs' => length rs' = length rs /\
      (forall i, i < nr -> length (nth i rs' []) = length (nth i rs []) /\
         forall k b, tb (rw (nth i rs' []) k) b =
          if Nat.ltb i t && Nat.eqb k (off + i / 64) && Nat.eqb b (i mod 64) then true else tb (rw (nth i rs1 []) k) b))); [lia| | |].
    + refine (conj H1 _). intros i Hi. split; [apply H3; exact Hi|]. intros; reflexivity.
    + intros t rs' _ Ht (G1 & G2). assert (Htn : t < nr) by lia. assert (L := HW t Htn). destruct (G2 t Htn) as [G3 G4].
      assert (Hk := wwidth_lt nc t ltac:(lia)). fold w in Hk.
      apply wp_bind, (wp_aget _ _ _ []); [lia|]. apply wp_bind, (wp_aget _ _ _ 0%N); [lia|].
      fold (rw (nth t rs' []) (off + t / 64)). apply wp_bind, wp_aset; [lia|]. apply wp_aset; [lia|].
      split; [rewrite length_upd; exact G1|]. intros i Hi. rewrite nth_upd by lia. destruct (Nat.eqb_spec i t) as [->|Hne].
      * split; [rewrite length_upd; exact G3|]. intros k b. rewrite rw_upd by lia.
        destruct (Nat.ltb_spec t (S t)); [|lia]. cbn [andb].
        destruct (Nat.eqb_spec k (off + t / 64)) as [->|]; cbn [andb].
        -- rewrite (tb_write _ (t mod 64) true b) by lia. destruct (Nat.eqb_spec b (t mod 64)); auto. rewrite G4, Nat.ltb_irrefl. reflexivity.
        -- rewrite G4, Nat.ltb_irrefl. reflexivity.
      * destruct (G2 i Hi) as [G5 G6]. split; [exact G5|]. intros k b. rewrite G6.
        destruct (Nat.ltb_spec i t), (Nat.ltb_spec i (S t)); try lia; reflexivity.
    + intros rs' (G1 & G2). apply HQ; auto.
      * intros i Hi. destruct (G2 i Hi) as [G3 G4]. split; [exact G3|]. intros k b Hb. rewrite G4, (proj2 (H3 i Hi)).
        destruct (Nat.leb_spec off k); cbn [andb].
        2:{ destruct (Nat.eqb_spec k (off + i / 64)); [lia|]. rewrite andb_false_r. reflexivity. }
        destruct (Nat.ltb_spec (64 * (k - off) + b) nc).
        -- assert (k < off + w) by (unfold w, wwidth; lia). destruct (Nat.ltb_spec k (off + w)); [|lia]. cbn [andb].
           replace (Nat.ltb k (off + (w - 1)) || (Nat.ltb b 64 && Nat.ltb (64 * (w - 1) + b) nc)) with true.
           ++ destruct (Nat.ltb_spec i (Nat.min nr nc)), (Nat.eqb_spec k (off + i / 64)), (Nat.eqb_spec b (i mod 64)), (Nat.eqb_spec (64 * (k - off) + b) i); try lia; reflexivity.
           ++ symmetry. apply orb_true_iff. destruct (Nat.ltb_spec k (off + (w - 1))); [left; reflexivity|right].
              apply andb_true_iff. split; apply Nat.ltb_lt; [lia|]. replace (w - 1) with (k - off) by lia. lia.
        -- replace (Nat.ltb k (off + w) && (Nat.ltb k (off + (w - 1)) || (Nat.ltb b 64 && Nat.ltb (64 * (w - 1) + b) nc))) with false.
           ++ destruct (Nat.ltb_spec i (Nat.min nr nc)), (Nat.eqb_spec k (off + i / 64)), (Nat.eqb_spec b (i mod 64)); try lia; reflexivity.
           ++ symmetry. destruct (Nat.ltb_spec k (off + w)), (Nat.ltb_spec k (off + (w - 1))), (Nat.ltb_spec (64 * (w - 1) + b) nc); cbn [andb orb];
                rewrite ?andb_false_r; auto; exfalso; unfold w, wwidth in *; lia.
      * intros i k b Hi Hb. destruct (G2 i Hi) as [_ G4]. rewrite G4, (proj2 (H3 i Hi)).
        destruct (Nat.eqb_spec b (i mod 64)); [lia|]. rewrite andb_false_r. destruct (_ && _); [discriminate|auto].
Qed.

(** ** The inverse *)

(** V with [A | I] reduced to [V A | V] *)
Lemma aug_inverse : forall n nr C A B B' r q, 0 < n -> n <= nr -> nr + n <= C -> r <= n ->
  (forall i j, i < n -> j < nr -> B i j = Nat.ltb j n && A i j) ->
  (forall i j, i < n -> j < n -> B i (nr + j) = Nat.eqb j i) ->
  req n B B' -> pinv true n C B' r q ->
  let V := fun i j => B' i (nr + j) in
  invertible n V /\ (exists r', rref n n (fmul n V A) r') /\ (invertible n A -> inverse_of n A V).
Proof.
  intros n nr C A B B' r q Hn Hnr HC Hr E1 E2 (W & HW & EW) (P1 & P2 & P3 & P4 & P5 & P6) V.
  assert (EV : forall i j, i < n -> j < n -> V i j = W i j).
  { intros i j Hi Hj. unfold V. rewrite EW by auto. unfold fmul. rewrite <- (xsum_fid_r n j (fun k => W i k) Hj).
    apply xsum_ext. intros k Hk. rewrite E2 by auto. unfold fid. rewrite Nat.eqb_sym. reflexivity. }
  assert (HV : invertible n V) by (apply (invertible_proper n V W); [intros i j Hi Hj; apply EV; auto|exact HW]).
  assert (EA : forall i j, i < n -> j < n -> fmul n V A i j = B' i j).
  { intros i j Hi Hj. rewrite EW by auto. unfold fmul. apply xsum_ext. intros k Hk. rewrite EV, E1 by (auto; lia).
    destruct (Nat.ltb_spec j n); [reflexivity|lia]. }
  assert (Hrow : forall X i, invertible n X -> i < n -> exists j, j < n /\ X i j = true).
  { intros X i (Y & HY & _) Hi. destruct (find_row (fun j => X i j) 0 n) as [(j & _ & Hj & H)|H]; [exists j; auto|].
    exfalso. specialize (HY i i Hi Hi). unfold fmul, fid in HY. rewrite Nat.eqb_refl, xsum_false in HY; [discriminate|].
    intros k Hk. rewrite H by lia. reflexivity. }
  assert (Hrn : r = n).
  { destruct (Nat.eq_dec r n); auto. exfalso. destruct (Hrow V r HV ltac:(lia)) as (j & Hj & H).
    unfold V in H. rewrite P6 in H by lia. discriminate. }
  subst r. refine (conj HV (conj _ _)).
  - assert (Hcut : exists r', r' <= n /\ (forall l, l < r' -> q l < n) /\ forall l, r' <= l -> l < n -> n <= q l).
    { destruct (find_row (fun l => Nat.leb n (q l)) 0 n) as [(l0 & _ & Hl0 & H0)|H0].
      - assert (HM : forall m, m <= n -> (exists r', r' < m /\ n <= q r' /\ forall l, l < r' -> q l < n) \/ (forall l, l < m -> q l < n)).
        { induction m as [|m IH]; intros Hm; [right; intros; lia|]. destruct (IH ltac:(lia)) as [(r' & H1 & H2 & H3)|H].
          - left. exists r'. refine (conj _ (conj H2 H3)). lia.
          - destruct (Nat.lt_ge_cases (q m) n).
            + right. intros l Hl. destruct (Nat.eq_dec l m) as [->|]; auto. apply H. lia.
            + left. exists m. refine (conj _ (conj H1 H)). lia. }
        destruct (HM n (le_n n)) as [(r' & H1 & H2 & H3)|H].
        + exists r'. refine (conj _ (conj H3 _)); [lia|]. intros l Hl1 Hl2. destruct (Nat.eq_dec l r') as [->|]; auto.
          specialize (P2 r' l ltac:(lia) Hl2). lia.
        + exists n. refine (conj (le_n n) (conj H _)). intros; lia.
      - exists n. refine (conj (le_n n) (conj _ _)); [|intros; lia]. intros l Hl. specialize (H0 l ltac:(lia) Hl). apply Nat.leb_gt in H0. exact H0. }
    destruct Hcut as (r' & Hr' & Hc1 & Hc2). exists r'. split; [exact Hr'|]. exists q.
    refine (conj Hc1 (conj _ (conj _ (conj _ _)))).
    + intros l l' H1 H2. apply P2; lia.
    + intros l j Hl Hj. assert (q l < n) by auto. rewrite EA by lia. apply P3; lia.
    + intros l i Hl Hi. rewrite EA by (auto; lia). destruct (Nat.eqb_spec i l) as [->|]; [apply P4; lia|apply P5; auto; lia].
    + intros i j Hi1 Hi2 Hj. rewrite EA by auto. apply P3; auto. specialize (Hc2 i Hi1 Hi2). lia.
  - intros HA. assert (HVA : invertible n (fmul n V A)) by (apply invertible_mul; auto).
    assert (Hq : forall l, l < n -> q l < n).
    { intros l Hl. destruct (Nat.lt_ge_cases (q l) n) as [|Hge]; auto. exfalso.
      destruct (Hrow _ l HVA Hl) as (j & Hj & H). rewrite EA, P3 in H by lia. discriminate. }
    assert (Hid := increasing_id n q Hq P2). apply left_inverse. intros i j Hi Hj. rewrite EA by auto.
    rewrite <- (Hid j Hj) at 1. unfold fid. destruct (Nat.eqb_spec i j) as [->|]; [apply P4; auto|apply P5; auto].
Qed.

Lemma wp_inv_m4ri : forall n A, okm n n A -> 0 < n ->
  wp (mzd_inv_m4ri A) (fun B => okm n n B /\ invertible n (bitat B) /\
    (exists r, rref n n (fmul n (bitat B) (bitat A)) r) /\ (invertible n (bitat A) -> inverse_of n (bitat A) (bitat B))).
Proof.
  intros n A HA Hn. unfold mzd_inv_m4ri. rewrite (okm_width n n A HA). destruct HA as (A1 & A2 & A3 & A4).
  assert (HA : okm n n A) by (refine (conj A1 (conj A2 (conj A3 A4)))).
  rewrite A1, A2, Nat.eqb_refl. cbn [negb]. cbv zeta. set (w := wwidth n).
  assert (Hw : 0 < w) by (apply wwidth_pos; exact Hn).
  assert (Hwn : n <= 64 * w /\ 64 * (w - 1) < n) by (unfold w, wwidth; lia). destruct Hwn as [Hwn Hwn'].
  assert (W2 : wwidth (2 * (64 * w)) = 2 * w) by (unfold wwidth; lia).
  destruct (init_ok n (2 * (64 * w))) as [(I1 & I2 & I3 & I4) _].
  assert (TM : forall b, tb (high_bitmask A) b = Nat.ltb b 64 && Nat.ltb (64 * (w - 1) + b) n) by (intros; apply (tb_high n n); auto).
  apply wp_bind. apply wp_copy_into; [exact Hw|lia|lia| |].
  { intros i Hi. rewrite (proj1 (I4 i Hi)), (proj1 (A4 i Hi)), W2. fold w. lia. }
  intros rs1 L1 E1 _. rewrite I3 in L1. apply wp_bind. apply wp_set_ui_one; [exact Hn|lia| |].
  { intros i Hi. rewrite (proj1 (E1 i Hi)), (proj1 (I4 i Hi)), W2. fold w. lia. }
  fold w. intros rs2 L2 E2 E2'.
  assert (T1 : forall i k b, i < n -> tb (rw (nth i rs1 []) k) b = Nat.ltb k w && tb (rw (nth i (mrows A) []) k) b).
  { intros i k b Hi. rewrite (proj2 (E1 i Hi)). cbn [Nat.leb andb]. rewrite !Nat.add_0_l. replace (k - 0 + 0) with k by lia.
    replace (tb (rw (nth i (mrows (mzd_init n (2 * (64 * w)))) []) k) b) with false
      by (simpl mrows; rewrite nth_repeat_in by exact Hi; rewrite rw_repeat, tb_0; reflexivity).
    rewrite TM. destruct (Nat.ltb_spec k w); cbn [andb]; auto. destruct (Nat.ltb_spec k (w - 1)); cbn [orb]; auto.
    destruct (Nat.ltb_spec b 64), (Nat.ltb_spec (64 * (w - 1) + b) n); cbn [andb]; auto;
      symmetry; apply (wfr_tb n); auto; intros; replace k with (w - 1) in * by lia; lia. }
  assert (T2 : forall i k b, i < n -> b < 64 -> tb (rw (nth i rs2 []) k) b =
      if Nat.ltb k w then tb (rw (nth i (mrows A) []) k) b else Nat.eqb (64 * (k - w) + b) i).
  { intros i k b Hi Hb. rewrite (proj2 (E2 i Hi)) by exact Hb. rewrite T1 by exact Hi.
    destruct (Nat.ltb_spec k w), (Nat.leb_spec w k), (Nat.ltb_spec (64 * (k - w) + b) n); try lia; cbn [andb]; auto.
    symmetry. apply Nat.eqb_neq. lia. }
  set (M2 := with_rows (mzd_init n (2 * (64 * w))) rs2).
  assert (HM2 : okm n (2 * (64 * w)) M2).
  { refine (conj eq_refl (conj eq_refl (conj _ _))); [simpl; lia|]. intros i Hi. split.
    - simpl. rewrite (proj1 (E2 i Hi)), (proj1 (E1 i Hi)), (proj1 (I4 i Hi)). reflexivity.
    - simpl mrows. intros k b Hb. destruct (Nat.lt_ge_cases b 64) as [H64|H64].
      + split; [exact H64|]. rewrite T2 in Hb by auto. destruct (Nat.ltb_spec k w).
        * assert (X := proj2 (A4 i Hi) k b Hb). lia.
        * apply Nat.eqb_eq in Hb. lia.
      + exfalso. apply E2' in Hb; auto. rewrite T1 in Hb by auto. apply andb_true_iff in Hb as [_ Hb].
        assert (X := proj2 (A4 i Hi) k b Hb). lia. }
  assert (B1 : forall i j, i < n -> j < 64 * w -> bitat M2 i j = Nat.ltb j n && bitat A i j).
  { intros i j Hi Hj. unfold bitat. simpl mrows. rewrite !rowbit_tb, T2 by (auto; lia).
    destruct (Nat.ltb_spec (j / 64) w); [|lia]. destruct (Nat.ltb_spec j n); auto. cbn [andb]. apply (wfr_tb n); auto. lia. }
  assert (B2 : forall i j, i < n -> j < n -> bitat M2 i (64 * w + j) = Nat.eqb j i).
  { intros i j Hi Hj. unfold bitat. simpl mrows. rewrite rowbit_tb, T2 by (auto; lia).
    destruct (Nat.ltb_spec ((64 * w + j) / 64) w); [lia|]. f_equal. lia. }
  apply wp_bind. assert (HK := echelon_k_ok n (2 * (64 * w)) M2 0 HM2).
  destruct HK as [HK1 HK2]. { left. split; auto. destruct (Nat.le_gt_cases 4 n); [left; auto|right]. lia. }
  apply (wp_echelonize_m4ri n (2 * (64 * w))); auto; [lia|]. intros M3 r q HM3 HR Hr HP.
  destruct HM3 as (C1 & C2 & C3 & C4). destruct (init_ok n n) as [(J1 & J2 & J3 & J4) _].
  apply wp_bind. apply wp_copy_into; [exact Hw|lia|lia| |].
  { intros i Hi. rewrite (proj1 (J4 i Hi)), (proj1 (C4 i Hi)), W2. fold w. lia. }
  intros rs3 L3 E3 _. apply wp_ok.
  assert (T3 : forall i k b, i < n -> tb (rw (nth i rs3 []) k) b =
     Nat.ltb k w && Nat.ltb b 64 && Nat.ltb (64 * k + b) n && tb (rw (nth i (mrows M3) []) (k + w)) b).
  { intros i k b Hi. rewrite (proj2 (E3 i Hi)). cbn [Nat.leb andb]. rewrite !Nat.add_0_l. replace (k - 0 + w) with (k + w) by lia.
    replace (tb (rw (nth i (mrows (mzd_init n n)) []) k) b) with false
      by (simpl mrows; rewrite nth_repeat_in by exact Hi; rewrite rw_repeat, tb_0; reflexivity).
    rewrite TM. destruct (Nat.ltb_spec k w); cbn [andb]; auto. destruct (Nat.ltb_spec k (w - 1)); cbn [orb].
    - destruct (Nat.ltb_spec b 64); cbn [andb]; [destruct (Nat.ltb_spec (64 * k + b) n); [reflexivity|lia]|].
      apply (wfr_tb (2 * (64 * w))); auto. lia.
    - replace k with (w - 1) by lia. destruct (Nat.ltb b 64 && Nat.ltb (64 * (w - 1) + b) n) eqn:Eb; reflexivity. }
  set (BB := with_rows (mzd_init n n) rs3).
  assert (HB : okm n n BB).
  { refine (conj eq_refl (conj eq_refl (conj _ _))); [simpl; lia|]. intros i Hi. split.
    - simpl. rewrite (proj1 (E3 i Hi)), (proj1 (J4 i Hi)). reflexivity.
    - simpl mrows. intros k b Hb. rewrite T3 in Hb by auto. repeat (apply andb_true_iff in Hb as [Hb ?]).
      repeat match goal with H : Nat.ltb _ _ = true |- _ => apply Nat.ltb_lt in H end. auto. }
  assert (BV : forall i j, i < n -> j < n -> bitat BB i j = bitat M3 i (64 * w + j)).
  { intros i j Hi Hj. unfold bitat. simpl mrows. rewrite !rowbit_tb, T3 by auto.
    replace ((64 * w + j) / 64) with (j / 64 + w) by lia. replace ((64 * w + j) mod 64) with (j mod 64) by lia.
    destruct (Nat.ltb_spec (j / 64) w), (Nat.ltb_spec (j mod 64) 64), (Nat.ltb_spec (64 * (j / 64) + j mod 64) n); try lia; reflexivity. }
  destruct (aug_inverse n (64 * w) (2 * (64 * w)) (bitat A) (bitat M2) (bitat M3) r q) as (V1 & (r' & V2) & V3); auto; [lia|].
  assert (EV : feq n (bitat BB) (fun i j => bitat M3 i (64 * w + j))) by (intros i j Hi Hj; apply BV; auto).
  refine (conj HB (conj _ (conj _ _))).
  - rewrite EV. exact V1.
  - exists r'. destruct V2 as (Q1 & q' & Q2 & Q3 & Q4 & Q5 & Q6).
    assert (EF : forall i j, i < n -> j < n -> fmul n (bitat BB) (bitat A) i j = fmul n (fun i j => bitat M3 i (64 * w + j)) (bitat A) i j).
    { intros i j Hi Hj. unfold fmul. apply xsum_ext. intros k Hk. rewrite BV by auto. reflexivity. }
    split; [exact Q1|]. exists q'. refine (conj Q2 (conj Q3 (conj _ (conj _ _)))).
    + intros l j Hl Hj. specialize (Q2 l Hl). rewrite EF by lia. apply Q4; auto.
    + intros l i Hl Hi. rewrite EF by auto. apply Q5; auto.
    + intros i j H1 H2 H3. rewrite EF by auto. apply Q6; auto.
  - intros HI. specialize (V3 HI). unfold inverse_of in *. rewrite EV. exact V3.
Qed.

(** ** A loop that does not end *)

Lemma echelon_loop_forever : forall R C M fuel TLs r c, okm R C M -> c < C -> echelon_loop fuel 0 M TLs 0 r c = UB.
Proof.
  intros R C M fuel. induction fuel as [|fuel IH]; intros TLs r c HM Hc; auto. cbn [echelon_loop].
  rewrite (proj1 (proj2 HM)). destruct (Nat.ltb_spec c C); [|lia]. cbn [negb].
  rewrite Nat.add_0_r. destruct (Nat.ltb_spec C c); [lia|].
  replace (gauss_submatrix_full M r c (mnrows M) 0) with (Ok (M, 0)).
  - simpl. rewrite !Nat.add_0_r. apply IH; auto.
  - unfold gauss_submatrix_full, for_ret. rewrite Nat.add_0_r, Nat.sub_diag. reflexivity.
Qed.
