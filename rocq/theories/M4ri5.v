(** The steps of _mzd_echelonize_m4ri: _mzd_gauss_submatrix_full, the tables, mzd_find_pivot. *)
From Coq Require Import Arith NArith ZArith List Bool Lia ZifyNat.
From Verif Require Import Base Spec LinAlg ModelM4ri SpecM4ri M4ri1 M4ri2 M4ri3 M4ri4.
Import ListNotations.
#[local] Ltac Zify.zify_post_hook ::= Z.to_euclidean_division_equations.

(** ** Tables *)

Lemma tblspec_ext : forall g g' c k TL, (forall l j, g' l j = g l j) -> tblspec g c k TL -> tblspec g' c k TL.
Proof.
  intros g g' c k TL E H x Hx. destruct (H x Hx) as [H1 H2]. split; auto. intros j Hj. rewrite H2 by auto. f_equal.
  apply xsum_ext. intros l _. rewrite E. reflexivity.
Qed.
Lemma tabspec_ext : forall C K c ks ts g g', (forall l j, g' l j = g l j) -> tabspec C K c g ks ts -> tabspec C K c g' ks ts.
Proof.
  intros C K c ks. induction ks as [|k ks IH]; intros [|TL ts] g g' E H; simpl in *; auto.
  destruct H as (H1 & H2 & H3 & H4 & H5). refine (conj H1 (conj H2 (conj H3 (conj _ _)))).
  - apply (tblspec_ext g); auto.
  - apply (IH ts (fun l => g (k + l))); auto.
Qed.

Lemma wp_make_tables : forall R C K M c, okm R C M -> c < C -> K <= 16 ->
  forall ks TLs r (Q : list (list (list N) * list nat) -> Prop), length TLs = length ks ->
  (forall k, In k ks -> 1 <= k /\ k <= K) -> (forall TL, In TL TLs -> tblok C K TL) -> r + list_sum ks <= R ->
  (forall ts, length ts = length ks -> tabspec C K c (fun l j => bitat M (r + l) j) ks ts ->
     (forall TL, In TL ts -> tblok C K TL) -> Q ts) ->
  wp (make_tables M r c ks TLs) Q.
Proof.
  intros R C K M c HM Hc HK ks. induction ks as [|k ks IH]; intros TLs r Q HL Hks HT Hr HQ.
  - destruct TLs; [|discriminate]. simpl. apply HQ; simpl; auto.
  - destruct TLs as [|TL TLs]; [discriminate|]. simpl make_tables. simpl in Hr.
    destruct (Hks k ltac:(simpl; auto)) as [K1 K2].
    apply wp_bind. apply (wp_make_table R C M r c k K); auto; [lia|lia|apply HT; simpl; auto|].
    intros TL' O' S'. assert (HL' : length TLs = length ks) by (simpl in HL; lia).
    apply wp_bind. apply IH; [exact HL'|intros; apply Hks; simpl; auto|intros; apply HT; simpl; auto|lia|].
    intros ts L' T' O2. apply wp_ok, HQ.
    + simpl. lia.
    + simpl. refine (conj K1 (conj K2 (conj O' (conj S' _)))).
      apply (tabspec_ext _ _ _ _ _ (fun l j => bitat M (r + k + l) j)); auto.
      intros l j. f_equal. lia.
    + intros X [<-|HX]; auto.
Qed.

Lemma splits_ok : forall nt k kbar, 1 <= nt -> nt <= 6 -> nt <= kbar -> kbar <= nt * k ->
  length (splits nt kbar) = nt /\ list_sum (splits nt kbar) = kbar /\ forall x, In x (splits nt kbar) -> 1 <= x /\ x <= k.
Proof.
  intros nt k kbar H1 H2 H3 H4.
  assert (E : nt = 1 \/ nt = 2 \/ nt = 3 \/ nt = 4 \/ nt = 5 \/ nt = 6) by lia.
  destruct E as [->|[->|[->|[->|[->| ->]]]]]; unfold splits; (refine (conj eq_refl (conj _ _)); [unfold list_sum, fold_right|intros x Hx; cbn [In] in Hx]).
  all: repeat match goal with H : _ \/ _ |- _ => destruct H as [H|H] | H : False |- _ => destruct H end; subst.
  all: repeat match goal with |- context [Nat.leb ?a ?b] => destruct (Nat.leb_spec a b) end; lia.
Qed.
Lemma ntables_ok : forall k kbar, 1 <= k -> 1 <= kbar -> kbar <= 6 * k ->
  let nt := ntables k kbar in 1 <= nt /\ nt <= 6 /\ nt <= kbar /\ kbar <= nt * k.
Proof.
  intros k kbar H1 H2 H3. unfold ntables.
  destruct (Nat.ltb_spec (5 * k) kbar); [lia|]. destruct (Nat.ltb_spec (4 * k) kbar); [lia|].
  destruct (Nat.ltb_spec (3 * k) kbar); [lia|]. destruct (Nat.ltb_spec (2 * k) kbar); [lia|].
  destruct (Nat.ltb_spec k kbar); lia.
Qed.

(** ** Adding combinations of fixed rows is a row operation *)

Lemma req_comb : forall R r kb W B B', r + kb <= R -> (forall i l, r <= i -> i < r + kb -> W i l = false) ->
  (forall i j, i < R -> B' i j = xorb (B i j) (xsum kb (fun l => W i l && B (r + l) j))) -> req R B B'.
Proof.
  intros R r kb W B B' Hr HW E.
  set (Nm := fun i m => Nat.leb r m && Nat.ltb m (r + kb) && W i (m - r)).
  assert (S : forall i (f : nat -> bool), xsum R (fun m => Nm i m && f m) = xsum kb (fun l => W i l && f (r + l))).
  { intros i f. replace R with (r + (kb + (R - r - kb))) by lia. rewrite xsum_add, (xsum_false r).
    - rewrite xorb_false_l, xsum_add, (xsum_false (R - r - kb)).
      + rewrite xorb_false_r. apply xsum_ext. intros l Hl. unfold Nm. destruct (Nat.leb_spec r (r + l)); [|lia].
        destruct (Nat.ltb_spec (r + l) (r + kb)); [|lia]. cbn [andb]. f_equal. f_equal. lia.
      + intros l _. unfold Nm. destruct (Nat.ltb_spec (r + (kb + l)) (r + kb)); [lia|]. rewrite andb_false_r. reflexivity.
    - intros m Hm. unfold Nm. destruct (Nat.leb_spec r m); [lia|reflexivity]. }
  exists (fun i m => xorb (fid i m) (Nm i m)). split.
  - assert (H : feq R (fmul R (fun i m => xorb (fid i m) (Nm i m)) (fun i m => xorb (fid i m) (Nm i m))) fid).
    { intros i j Hi Hj. unfold fmul.
      rewrite (xsum_ext R _ (fun m => xorb (fid i m && (xorb (fid m j) (Nm m j))) (Nm i m && (xorb (fid m j) (Nm m j))))).
      - rewrite xsum_xorb, (xsum_fid_l R i (fun m => xorb (fid m j) (Nm m j))) by exact Hi.
        rewrite (xsum_ext R (fun m => Nm i m && _) (fun m => Nm i m && fid m j)).
        + rewrite (xsum_fid_r R j (fun m => Nm i m)) by exact Hj. rewrite xorb_assoc, xorb_nilpotent, xorb_false_r. reflexivity.
        + intros m Hm. destruct (Nm i m) eqn:En; auto. cbn [andb]. unfold Nm in En.
          apply andb_true_iff in En as [En _]. apply andb_true_iff in En as [En1 En2].
          apply Nat.leb_le in En1. apply Nat.ltb_lt in En2. unfold Nm. rewrite HW by lia. rewrite andb_false_r. apply xorb_false_r.
      - intros m _. destruct (fid i m), (Nm i m), (xorb (fid m j) (Nm m j)); reflexivity. }
    eexists. split; exact H.
  - intros i j Hi. rewrite E by exact Hi. unfold fmul.
    rewrite (xsum_ext R _ (fun m => xorb (fid i m && B m j) (Nm i m && B m j))).
    + rewrite xsum_xorb, (xsum_fid_l R i (fun m => B m j)) by exact Hi. rewrite S. reflexivity.
    + intros m _. destruct (fid i m), (Nm i m), (B m j); reflexivity.
Qed.

(** ** _mzd_gauss_submatrix_full *)

(** [d] pivots found: rows r to r + d - 1 are unit vectors in columns c to c + d - 1 *)
Definition gsub (R r c d : nat) (B0 B : fmat) : Prop :=
  req R B0 B /\ (forall i j, i < r -> B i j = B0 i j) /\
  (forall i j, r <= i -> i < R -> j < c -> B i j = false) /\
  (forall l l', l < d -> l' < d -> B (r + l) (c + l') = Nat.eqb l l').

Lemma wp_gauss_sub_col : forall R C M0 M r c d (Q : mzd + mzd -> Prop), okm R C M ->
  r + d <= R -> d < 64 -> c + d < C -> gsub R r c d (bitat M0) (bitat M) ->
  (forall M', okm R C M' -> r + d < R -> gsub R r c (d + 1) (bitat M0) (bitat M') -> Q (inr M')) ->
  (forall M', okm R C M' -> gsub R r c d (bitat M0) (bitat M') ->
     (forall i l, r + d <= i -> i < R -> l <= d -> bitat M' i (c + l) = false) ->
     (d = 0 -> M' = M) -> Q (inl M')) ->
  wp (gauss_sub_col r c (c + d) (r + d) R M) Q.
Proof.
  intros R C M0 M r c d Q HM Hr Hd Hc HG HQ1 HQ2. unfold gauss_sub_col.
  apply (wp_for_ret _ _ (fun i M' => okm R C M' /\ gsub R r c d (bitat M0) (bitat M') /\
     (forall i' l, r + d <= i' -> i' < i -> l <= d -> bitat M' i' (c + l) = false) /\ (d = 0 -> M' = M))); auto.
  - refine (conj HM (conj HG (conj _ (fun _ => eq_refl)))). intros; lia.
  - clear HG. intros i M1 Hi1 Hi2 (HM1 & HG1 & HZ1 & HE1).
    replace (c + d - c) with d by lia.
    apply wp_bind. apply (wp_read_bits R C); auto; try lia. intros tmp Htmp.
    destruct (N.eqb_spec tmp 0) as [E0|E0].
    { apply wp_ok. refine (conj HM1 (conj HG1 (conj _ HE1))). intros i' l Hi'1 Hi'2 Hl.
      destruct (Nat.eq_dec i' i) as [->|]; [|apply HZ1; auto; lia].
      assert (H := Htmp l). rewrite E0, tb_0 in H. destruct (Nat.ltb_spec l (d + 1)); [|lia]. symmetry. exact H. }
    apply wp_bind.
    apply (wp_for_up _ (fun l M2 => okm R C M2 /\ gsub R r c d (bitat M0) (bitat M2) /\ (d = 0 -> M2 = M1) /\
       (forall i' j, i' < R -> i' <> i -> bitat M2 i' j = bitat M1 i' j) /\
       (forall l', l' < d -> bitat M2 i (c + l') = Nat.leb l l' && bitat M1 i (c + l')))); [lia| | |].
    + refine (conj HM1 (conj HG1 (conj (fun _ => eq_refl) (conj (fun _ _ _ _ => eq_refl) _)))). intros l' _. reflexivity.
    + intros l M2 _ Hl (HM2 & HG2 & HE2 & HO2 & HI2). rewrite get_bit_tb, Htmp.
      destruct (Nat.ltb_spec l (d + 1)); [|lia]. cbn [andb].
      destruct (bitat M1 i (c + l)) eqn:Eb.
      * apply (wp_row_add R C); auto; try lia. intros M3 HM3 E3.
        destruct HG2 as (G1 & G2 & G3 & G4).
        assert (Hz : forall j, j < c + l -> bitat M2 (r + l) j = false).
        { intros j Hj. destruct (Nat.lt_ge_cases j c); [apply G3; auto; lia|].
          replace j with (c + (j - c)) by lia. rewrite G4 by lia. apply Nat.eqb_neq. lia. }
        assert (E3' : forall a b, bitat M3 a b = radd i (r + l) (bitat M2) a b).
        { intros a b. rewrite E3. unfold radd. destruct (Nat.eqb_spec a i) as [->|]; auto. cbn [andb].
          destruct (Nat.leb_spec (c + l) b); auto. rewrite Hz by auto. symmetry. apply xorb_false_r. }
        assert (EO : forall a b, a <> i -> bitat M3 a b = bitat M2 a b).
        { intros a b Ha. rewrite E3'. unfold radd. destruct (Nat.eqb_spec a i); [lia|reflexivity]. }
        refine (conj HM3 (conj _ (conj _ (conj _ _)))).
        -- refine (conj _ (conj _ (conj _ _))).
           ++ apply (req_trans R _ (bitat M2)); auto. apply (req_ext R _ (radd i (r + l) (bitat M2))); [intros; apply E3'|]. apply req_radd; lia.
           ++ intros a b Ha. rewrite EO by lia. apply G2. exact Ha.
           ++ intros a b Ha1 Ha2 Hb. rewrite E3'. unfold radd. destruct (Nat.eqb_spec a i); [|apply G3; auto].
              rewrite !G3 by lia. reflexivity.
           ++ intros x y Hx Hy. rewrite EO by lia. apply G4; auto.
        -- intros ->. lia.
        -- intros a b Ha1 Ha2. rewrite EO by exact Ha2. apply HO2; auto.
        -- intros y Hy. rewrite E3'. unfold radd. rewrite Nat.eqb_refl. rewrite HI2, G4 by auto.
           destruct (Nat.eqb_spec l y) as [<-|].
           ++ rewrite Eb. destruct (Nat.leb_spec l l), (Nat.leb_spec (S l) l); try lia; reflexivity.
           ++ rewrite xorb_false_r. destruct (Nat.leb_spec l y), (Nat.leb_spec (S l) y); try lia; reflexivity.
      * apply wp_ok. refine (conj HM2 (conj HG2 (conj HE2 (conj HO2 _)))). intros y Hy. rewrite HI2 by auto.
        destruct (Nat.eq_dec y l) as [->|]; [rewrite Eb, !andb_false_r; reflexivity|].
        destruct (Nat.leb_spec l y), (Nat.leb_spec (S l) y); try lia; reflexivity.
    + intros M2 (HM2 & HG2 & HE2 & HO2 & HI2).
      assert (HI : forall l, l < d -> bitat M2 i (c + l) = false).
      { intros l Hl. rewrite HI2 by auto. destruct (Nat.leb_spec d l); [lia|reflexivity]. }
      apply wp_bind. apply (wp_read_bit R C); auto. destruct (bitat M2 i (c + d)) eqn:Eb.
      2:{ apply wp_ok. refine (conj HM2 (conj HG2 (conj _ _))).
          - intros i' l Hi'1 Hi'2 Hl. destruct (Nat.eq_dec i' i) as [->|].
            + destruct (Nat.eq_dec l d) as [->|]; [exact Eb|apply HI; lia].
            + rewrite HO2 by lia. apply HZ1; auto; lia.
          - intros H0. rewrite HE2 by auto. auto. }
      apply wp_bind. apply (wp_row_swap R C); auto; try lia. intros M3 HM3 E3.
      destruct HG2 as (G1 & G2 & G3 & G4).
      assert (Es : forall b, bitat M3 (r + d) b = bitat M2 i b).
      { intros b. rewrite E3. unfold rswap. destruct (Nat.eqb_spec (r + d) i) as [<-|]; auto. rewrite Nat.eqb_refl. reflexivity. }
      assert (El : forall a b, a < r + d -> bitat M3 a b = bitat M2 a b).
      { intros a b Ha. rewrite E3. unfold rswap. destruct (Nat.eqb_spec a i); [lia|]. destruct (Nat.eqb_spec a (r + d)); [lia|reflexivity]. }
      assert (Z3 : forall a b, r <= a -> a < R -> b < c -> bitat M3 a b = false).
      { intros a b Ha1 Ha2 Hb. rewrite E3. unfold rswap. destruct (Nat.eqb_spec a i); [apply G3; auto; lia|].
        destruct (Nat.eqb_spec a (r + d)); apply G3; auto; lia. }
      assert (Zs : forall j, j < c + d -> bitat M3 (r + d) j = false).
      { intros j Hj. rewrite Es. destruct (Nat.lt_ge_cases j c); [apply G3; auto; lia|].
        replace j with (c + (j - c)) by lia. apply HI. lia. }
      apply wp_bind.
      apply (wp_for_up _ (fun t M4 => okm R C M4 /\ req R (bitat M3) (bitat M4) /\
         forall a b, bitat M4 a b = if Nat.leb r a && Nat.ltb a t && bitat M3 a (c + d)
                                    then xorb (bitat M3 a b) (bitat M3 (r + d) b) else bitat M3 a b)); [lia| | |].
      * refine (conj HM3 (conj (req_refl _ _) _)). intros a b.
        destruct (Nat.leb_spec r a), (Nat.ltb_spec a r); try lia; reflexivity.
      * intros l M4 Hl1 Hl2 (HM4 & HR4 & E4).
        assert (El4 : forall b, bitat M4 l b = bitat M3 l b).
        { intros b. rewrite E4, Nat.ltb_irrefl, andb_false_r. reflexivity. }
        assert (Es4 : forall b, bitat M4 (r + d) b = bitat M3 (r + d) b).
        { intros b. rewrite E4. destruct (Nat.ltb_spec (r + d) l); [lia|]. rewrite andb_false_r. reflexivity. }
        apply wp_bind. apply (wp_read_bit R C); auto; try lia. rewrite El4. destruct (bitat M3 l (c + d)) eqn:Eb3.
        -- apply (wp_row_add R C); auto; try lia. intros M5 HM5 E5.
           assert (E5' : forall a b, bitat M5 a b = radd l (r + d) (bitat M4) a b).
           { intros a b. rewrite E5. unfold radd. destruct (Nat.eqb_spec a l) as [->|]; auto. cbn [andb].
             destruct (Nat.leb_spec (c + d) b); auto. rewrite Es4, Zs by auto. symmetry. apply xorb_false_r. }
           refine (conj HM5 (conj _ _)).
           ++ apply (req_trans R _ (bitat M4)); auto. apply (req_ext R _ (radd l (r + d) (bitat M4))); [intros; apply E5'|]. apply req_radd; lia.
           ++ intros a b. rewrite E5'. unfold radd. destruct (Nat.eqb_spec a l) as [->|].
              ** rewrite El4, Es4, Eb3. destruct (Nat.leb_spec r l), (Nat.ltb_spec l (S l)); try lia. reflexivity.
              ** rewrite E4. destruct (Nat.ltb_spec a l), (Nat.ltb_spec a (S l)); try lia; reflexivity.
        -- apply wp_ok. refine (conj HM4 (conj HR4 _)). intros a b. rewrite E4. destruct (Nat.eq_dec a l) as [->|].
           ++ rewrite Eb3, !andb_false_r. reflexivity.
           ++ destruct (Nat.ltb_spec a l), (Nat.ltb_spec a (S l)); try lia; reflexivity.
      * intros M4 (HM4 & HR4 & E4). apply wp_ok. apply HQ1; auto; [lia|]. refine (conj _ (conj _ (conj _ _))).
        -- apply (req_trans R _ (bitat M2)); auto. apply (req_trans R _ (bitat M3)); auto.
           apply (req_ext R _ (rswap i (r + d) (bitat M2))); [intros; apply E3|]. apply req_rswap; lia.
        -- intros a b Ha. rewrite E4. destruct (Nat.leb_spec r a); [lia|]. cbn [andb]. rewrite El by lia. apply G2. exact Ha.
        -- intros a b Ha1 Ha2 Hb. rewrite E4, (Zs b), (Z3 a b) by (auto; lia). destruct (_ && _); reflexivity.
        -- intros x y Hx Hy. rewrite E4. destruct (Nat.leb_spec r (r + x)); [|lia]. cbn [andb].
           destruct (Nat.ltb_spec (r + x) (r + d)) as [Hxd|Hxd]; cbn [andb].
           ++ rewrite !El by lia. destruct (Nat.eq_dec y d) as [->|].
              ** rewrite Es, Eb. replace (Nat.eqb x d) with false by (symmetry; apply Nat.eqb_neq; lia).
                 destruct (bitat M2 (r + x) (c + d)) eqn:E'; auto.
              ** rewrite Zs by lia. rewrite xorb_false_r. rewrite (G4 x y) by lia. destruct (bitat M2 (r + x) (c + d)); reflexivity.
           ++ assert (x = d) by lia. subst x. destruct (Nat.eq_dec y d) as [->|].
              ** rewrite Es, Eb, Nat.eqb_refl. reflexivity.
              ** rewrite Zs by lia. symmetry. apply Nat.eqb_neq. lia.
  - intros M' (H1 & H2 & H3 & H4). apply HQ2; auto.
Qed.

Lemma wp_gauss_submatrix : forall R C M r c k (Q : mzd * nat -> Prop), okm R C M ->
  r <= R -> k <= 64 -> c + k <= C -> (forall i j, r <= i -> i < R -> j < c -> bitat M i j = false) ->
  (forall M' kbar, okm R C M' -> kbar <= k -> r + kbar <= R -> gsub R r c kbar (bitat M) (bitat M') ->
     (kbar < k -> forall i l, r + kbar <= i -> i < R -> l <= kbar -> bitat M' i (c + l) = false) ->
     (kbar = 0 -> M' = M) -> Q (M', kbar)) ->
  wp (gauss_submatrix_full M r c R k) Q.
Proof.
  intros R C M r c k Q HM Hr Hk Hc Hz HQ. unfold gauss_submatrix_full. apply wp_bind.
  apply (wp_for_ret _ _ (fun j M1 => okm R C M1 /\ c <= j /\ r + (j - c) <= R /\
     gsub R r c (j - c) (bitat M) (bitat M1) /\ (j = c -> M1 = M))); [lia| | |].
  - refine (conj HM (conj (le_n c) (conj _ (conj _ (fun _ => eq_refl))))); [lia|].
    refine (conj (req_refl _ _) (conj (fun _ _ _ => eq_refl) (conj Hz _))). intros; lia.
  - intros j M1 Hj1 Hj2 (HM1 & _ & Hr1 & HG & HE). apply wp_bind.
    replace j with (c + (j - c)) at 1 by lia.
    apply (wp_gauss_sub_col R C M M1 r c (j - c)); auto; try lia.
    + intros M2 HM2 Hlt HG2. apply wp_ok. refine (conj HM2 (conj _ (conj _ (conj _ _)))); try lia.
      replace (S j - c) with (j - c + 1) by lia. exact HG2.
    + intros M2 HM2 HG2 HZ2 HE2. apply wp_ok. apply (HQ M2 (j - c)); auto; [lia|].
      intros H0. rewrite HE2 by exact H0. apply HE. lia.
  - intros M1 (HM1 & _ & Hr1 & HG & HE). replace (c + k - c) with k in * by lia. apply (HQ M1 k); auto; [lia|].
    intros ->. apply HE. lia.
Qed.
