(** _mzd_echelonize_m4ri gives the reduced row echelon form. *)
From Coq Require Import Arith NArith ZArith List Bool Lia ZifyNat.
From Verif Require Import Base Spec LinAlg SpecRank Rank ModelM4ri SpecM4ri M4ri1 M4ri2 M4ri3 M4ri4 M4ri5 M4ri6.
Import ListNotations.
#[local] Ltac Zify.zify_post_hook ::= Z.to_euclidean_division_equations.

Definition inblk (r kb i : nat) : bool := Nat.leb r i && Nat.ltb i (r + kb).

Lemma block_step : forall R r c kb q B0 B1 B2, r + kb <= R -> pinv true R c B0 r q -> gsub R r c kb B0 B1 ->
  (forall i j, i < R -> B2 i j = if inblk r kb i then B1 i j
     else xorb (B1 i j) (xsum kb (fun l => B1 i (c + l) && B1 (r + l) j))) ->
  req R B0 B2 /\ pinv true R (c + kb) B2 (r + kb) (fun l => if Nat.ltb l r then q l else c + (l - r)).
Proof.
  intros R r c kb q B0 B1 B2 Hr (P1 & P2 & P3 & P4 & P5 & P6) (G1 & G2 & G3 & G4) E.
  assert (Hin : forall l, l < kb -> inblk r kb (r + l) = true).
  { intros l Hl. unfold inblk. destruct (Nat.leb_spec r (r + l)), (Nat.ltb_spec (r + l) (r + kb)); try lia; reflexivity. }
  assert (Hlt : forall i, i < r -> inblk r kb i = false).
  { intros i Hi. unfold inblk. destruct (Nat.leb_spec r i); [lia|reflexivity]. }
  assert (Hge : forall i, r + kb <= i -> inblk r kb i = false).
  { intros i Hi. unfold inblk. destruct (Nat.ltb_spec i (r + kb)); [lia|apply andb_false_r]. }
  assert (Elow : forall i j, i < R -> j < c -> B2 i j = B1 i j).
  { intros i j Hi Hj. rewrite E by auto. destruct (inblk r kb i); auto. rewrite xsum_false; [apply xorb_false_r|].
    intros l Hl. rewrite (G3 (r + l)) by lia. apply andb_false_r. }
  assert (Eblk : forall i l, i < R -> inblk r kb i = false -> l < kb -> B2 i (c + l) = false).
  { intros i l Hi Hb Hl. rewrite E, Hb by auto. rewrite (xsum_single kb l); auto.
    - rewrite G4, Nat.eqb_refl, andb_true_r by auto. apply xorb_nilpotent.
    - intros k Hk Hne. rewrite G4 by auto. destruct (Nat.eqb_spec k l); [lia|]. apply andb_false_r. }
  split.
  - apply (req_trans R _ B1); auto.
    apply (req_comb R r kb (fun i l => negb (inblk r kb i) && B1 i (c + l))); auto.
    + intros i l H1 H2. replace i with (r + (i - r)) by lia. rewrite Hin by lia. reflexivity.
    + intros i j Hi. rewrite E by auto. destruct (inblk r kb i); cbn [negb andb]; auto.
      rewrite xsum_false by auto. symmetry. apply xorb_false_r.
  - refine (conj _ (conj _ (conj _ (conj _ (conj _ _))))).
    + intros l Hl. destruct (Nat.ltb_spec l r); [specialize (P1 l ltac:(auto)); lia|lia].
    + intros l l' H1 H2. destruct (Nat.ltb_spec l r), (Nat.ltb_spec l' r); try lia; [apply P2; auto|].
      specialize (P1 l ltac:(auto)). lia.
    + intros l j Hl Hj. destruct (Nat.ltb_spec l r).
      * specialize (P1 l ltac:(auto)). rewrite Elow, G2 by lia. apply P3; auto.
      * destruct (Nat.lt_ge_cases j c); [rewrite Elow by lia; apply G3; auto; lia|].
        rewrite E by lia. replace l with (r + (l - r)) by lia. rewrite Hin by lia. replace j with (c + (j - c)) by lia.
        rewrite G4 by lia. apply Nat.eqb_neq. lia.
    + intros l Hl. destruct (Nat.ltb_spec l r).
      * specialize (P1 l ltac:(auto)). rewrite Elow, G2 by lia. apply P4; auto.
      * rewrite E by lia. assert (El : l = r + (l - r)) by lia.
        replace (inblk r kb l) with true by (rewrite El; symmetry; apply Hin; lia).
        rewrite El at 1. rewrite G4 by lia. apply Nat.eqb_refl.
    + intros l i Hl Hi HH. destruct (Nat.ltb_spec l r).
      * specialize (P1 l ltac:(auto)). rewrite Elow by lia. destruct (Nat.lt_ge_cases i r).
        -- rewrite G2 by auto. apply P5; auto.
        -- apply G3; auto.
      * destruct (inblk r kb i) eqn:Eb; [|apply Eblk; auto; lia]. assert (Eb' := Eb). unfold inblk in Eb'.
        apply andb_true_iff in Eb' as [E1 E2]. apply Nat.leb_le in E1. apply Nat.ltb_lt in E2.
        rewrite E, Eb by auto. replace i with (r + (i - r)) by lia. rewrite G4 by lia. apply Nat.eqb_neq. lia.
    + intros i j Hi1 Hi2 Hj. destruct (Nat.lt_ge_cases j c); [rewrite Elow by auto; apply G3; auto; lia|].
      replace j with (c + (j - c)) by lia. apply Eblk; auto. lia.
Qed.

Lemma pinv_extend : forall R c c' B r q, pinv true R c B r q -> c <= c' ->
  (forall i j, r <= i -> i < R -> c <= j -> j < c' -> B i j = false) -> pinv true R c' B r q.
Proof.
  intros R c c' B r q (P1 & P2 & P3 & P4 & P5 & P6) Hc Hz.
  refine (conj _ (conj P2 (conj P3 (conj P4 (conj P5 _))))).
  - intros l Hl. specialize (P1 l Hl). lia.
  - intros i j H1 H2 H3. destruct (Nat.lt_ge_cases j c); auto.
Qed.
Lemma pinv_swap : forall R c B B' r i q, pinv true R c B r q -> r <= i -> i < R ->
  (forall a b, B' a b = rswap r i B a b) -> pinv true R c B' r q.
Proof.
  intros R c B B' r i q (P1 & P2 & P3 & P4 & P5 & P6) H1 H2 E.
  assert (Hlow : forall a b, a < r -> B' a b = B a b).
  { intros a b Ha. rewrite E. unfold rswap. destruct (Nat.eqb_spec a r); [lia|]. destruct (Nat.eqb_spec a i); [lia|reflexivity]. }
  assert (Hz : forall a b, r <= a -> a < R -> b < c -> B' a b = false).
  { intros a b H3 H4 H5. rewrite E. unfold rswap. destruct (Nat.eqb_spec a r); [apply P6; auto|]. destruct (Nat.eqb_spec a i); apply P6; auto; lia. }
  refine (conj P1 (conj P2 (conj _ (conj _ (conj _ Hz))))).
  - intros l j Hl Hj. rewrite Hlow by auto. auto.
  - intros l Hl. rewrite Hlow by auto. auto.
  - intros l a Hl Ha HH. destruct (Nat.lt_ge_cases a r); [rewrite Hlow by auto; auto|]. apply Hz; auto.
Qed.

(** One block: tables, rows below, rows above *)
Lemma wp_block : forall R C k M0 M1 r c kk kbar q TLs (Q : mzd * list (list (list N) * list nat) -> Prop),
  okm R C M1 -> 1 <= k -> k <= 10 -> kk <= 6 * k -> c + kk <= C -> r + kbar <= R -> kbar <= kk -> c < C ->
  pinv true R c (bitat M0) r q -> gsub R r c kbar (bitat M0) (bitat M1) ->
  (kbar < kk -> forall i l, r + kbar <= i -> i < R -> l <= kbar -> bitat M1 i (c + l) = false) ->
  length TLs = 6 -> (forall TL, In TL TLs -> tblok C k TL) ->
  (forall M2 TLs' q', okm R C M2 -> length TLs' = 6 -> (forall TL, In TL TLs' -> tblok C k TL) ->
     req R (bitat M0) (bitat M2) -> pinv true R (c + kbar) (bitat M2) (r + kbar) q' -> (kbar = 0 -> M2 = M1) -> Q (M2, TLs')) ->
  wp (if Nat.eqb kbar 0 then Ok (M1, TLs)
      else
        let nt := ntables k kbar in
        ts <- make_tables M1 r c (splits nt kbar) (firstn nt TLs) ;;
        M <- (if Nat.eqb kbar kk then process_rows M1 (r + kbar) (mnrows M1) c kbar ts else Ok M1) ;;
        M <- process_rows M 0 r c kbar ts ;;
        Ok (M, ts ++ skipn nt TLs)) Q.
Proof.
  intros R C k M0 M1 r c kk kbar q TLs Q HM1 Hk1 Hk2 Hkk Hc Hr Hkb HcC HP HG HZ HL HT HQ.
  destruct (Nat.eqb_spec kbar 0) as [->|Hkb0].
  - apply wp_ok. destruct (block_step R r c 0 q (bitat M0) (bitat M1) (bitat M1) ltac:(lia) HP HG) as [R1 P1].
    { intros i j Hi. simpl xsum. rewrite xorb_false_r. destruct (inblk r 0 i); reflexivity. }
    apply (HQ M1 TLs _ HM1 HL HT R1 P1). auto.
  - cbv zeta. destruct (ntables_ok k kbar Hk1 ltac:(lia) ltac:(lia)) as (N1 & N2 & N3 & N4).
    set (nt := ntables k kbar) in *. destruct (splits_ok nt k kbar N1 N2 N3 N4) as (S1 & S2 & S3).
    apply wp_bind. apply (wp_make_tables R C k M1 c HM1 HcC ltac:(lia)).
    + rewrite firstn_length, S1, HL. lia.
    + exact S3.
    + intros TL HTL. apply HT. rewrite <- (firstn_skipn nt TLs). apply in_or_app. left. exact HTL.
    + rewrite S2. exact Hr.
    + intros ts Lts HS HO. set (g := fun l j => bitat M1 (r + l) j) in *. rewrite S1 in Lts.
      assert (HPR : forall M lo hi (Q : mzd -> Prop), okm R C M -> lo <= hi -> hi <= R ->
         (forall M', okm R C M' -> added lo hi c kbar g (bitat M) (bitat M') -> Q M') ->
         wp (process_rows M lo hi c kbar ts) Q).
      { intros M lo hi Q' H1 H2 H3 H4. apply (wp_process_rows R C k M lo hi c kbar g); auto; try lia; rewrite Lts; auto. }
      apply wp_bind. rewrite (proj1 HM1).
      assert (HB : forall M2, okm R C M2 ->
        (forall i j, i < R -> bitat M2 i j = if Nat.leb (r + kbar) i
           then xorb (bitat M1 i j) (xsum kbar (fun l => bitat M1 i (c + l) && bitat M1 (r + l) j)) else bitat M1 i j) ->
        wp (M <- process_rows M2 0 r c kbar ts ;; Ok (M, ts ++ skipn nt TLs)) Q).
      { intros M2 HM2 E2. apply wp_bind. apply HPR; auto; try lia. intros M3 HM3 E3. apply wp_ok.
        destruct (block_step R r c kbar q (bitat M0) (bitat M1) (bitat M3) Hr HP HG) as [R3 P3].
        - assert (Elow : forall i j, i < r -> bitat M2 i j = bitat M1 i j).
          { intros i j Hi. rewrite E2 by lia. destruct (Nat.leb_spec (r + kbar) i); [lia|reflexivity]. }
          intros i j Hi. rewrite E3. cbn [Nat.leb andb]. unfold inblk.
          destruct (Nat.ltb_spec i r) as [Hir|Hir]; cbn [andb].
          + destruct (Nat.leb_spec r i); [lia|]. cbn [andb]. rewrite !Elow by auto. unfold g.
            rewrite (xsum_ext kbar (fun l => bitat M2 i (c + l) && _) (fun l => bitat M1 i (c + l) && bitat M1 (r + l) j))
              by (intros; rewrite Elow by auto; reflexivity).
            destruct (Nat.leb_spec c j); auto. rewrite xsum_false; [symmetry; apply xorb_false_r|].
            intros l Hl. destruct HG as (_ & _ & G3 & _). rewrite (G3 (r + l)) by lia. apply andb_false_r.
          + rewrite E2 by auto. destruct (Nat.leb_spec (r + kbar) i), (Nat.ltb_spec i (r + kbar)), (Nat.leb_spec r i); try lia; reflexivity.
        - apply (HQ M3 _ (fun l => if Nat.ltb l r then q l else c + (l - r)) HM3); auto.
          + rewrite app_length, skipn_length, Lts, HL. lia.
          + intros TL HTL. apply in_app_or in HTL as [HTL|HTL]; [apply HO; exact HTL|]. apply HT.
            rewrite <- (firstn_skipn nt TLs). apply in_or_app. right. exact HTL.
          + lia. }
      destruct (Nat.eqb_spec kbar kk) as [Ekk|Ekk].
      * apply HPR; auto. intros M2 HM2 E2. apply HB; auto. intros i j Hi. rewrite E2.
        destruct (Nat.ltb_spec i R); [|lia]. rewrite andb_true_r. destruct (Nat.leb_spec (r + kbar) i); cbn [andb]; auto.
        destruct (Nat.leb_spec c j); auto. rewrite xsum_false; [symmetry; apply xorb_false_r|].
        intros l Hl. destruct HG as (_ & _ & G3 & _). rewrite (G3 (r + l)) by lia. apply andb_false_r.
      * apply wp_ok. apply HB; auto. intros i j Hi. destruct (Nat.leb_spec (r + kbar) i); auto.
        rewrite xsum_false; [symmetry; apply xorb_false_r|]. intros l Hl. rewrite HZ by lia. reflexivity.
Qed.

Lemma wp_echelon_loop : forall R C k A0 (Q : mzd * nat -> Prop), 1 <= k -> k <= 10 -> 0 < C ->
  (forall M' r q, okm R C M' -> req R A0 (bitat M') -> r <= R -> pinv true R C (bitat M') r q -> Q (M', r)) ->
  forall fuel M TLs kk r c q (fresh : bool), okm R C M -> req R A0 (bitat M) -> 1 <= kk -> kk <= 6 * k ->
  r <= R -> c <= C -> pinv true R c (bitat M) r q -> length TLs = 6 -> (forall TL, In TL TLs -> tblok C k TL) ->
  (fresh = true -> r < R /\ c < C /\ bitat M r c = true) ->
  2 * (C - c) + (if fresh then 0 else 1) < fuel ->
  wp (echelon_loop fuel k M TLs kk r c) Q.
Proof.
  intros R C k A0 Q Hk1 Hk2 HC HQ. induction fuel as [|fuel IH]; intros M TLs kk r c q fresh HM HR Hkk1 Hkk2 Hr Hc HP HL HT HF Hfuel; [lia|].
  cbn [echelon_loop]. rewrite (proj1 (proj2 HM)). destruct (Nat.ltb_spec c C) as [HcC|HcC]; cbn [negb].
  2:{ apply wp_ok. replace c with C in HP by lia. apply (HQ M r q); auto. }
  set (kk1 := if Nat.ltb C (c + kk) then C - c else kk).
  assert (K1 : 1 <= kk1 /\ kk1 <= 6 * k /\ c + kk1 <= C).
  { unfold kk1. destruct (Nat.ltb_spec C (c + kk)); lia. }
  clearbody kk1. destruct K1 as (K1 & K2 & K3). rewrite (proj1 HM).
  apply wp_bind. apply (wp_gauss_submatrix R C); auto; [lia|apply HP|].
  intros M1 kbar HM1 Hkb Hrb HG HZ H0. apply wp_bind.
  apply (wp_block R C k M M1 r c kk1 kbar q TLs); auto.
  intros M2 TLs2 q2 HM2 HL2 HT2 HR2 HP2 H02.
  assert (HR' : req R A0 (bitat M2)) by (apply (req_trans R _ (bitat M)); auto).
  destruct (Nat.eqb_spec kk1 kbar) as [Ekk|Ekk].
  - apply (IH M2 TLs2 kk1 (r + kbar) (c + kbar) q2 false); auto; try lia; try discriminate.
  - apply wp_bind. apply (wp_find_pivot R C); auto. intros [[rbar cbar]|] HPV.
    + simpl in HPV. destruct HPV as (V1 & V2 & V3 & V4 & V5 & V6).
      apply wp_bind. apply (wp_row_swap R C); auto; try lia. intros M3 HM3 E3.
      apply (IH M3 TLs2 kk1 (r + kbar) cbar q2 true); auto; try lia.
      * apply (req_trans R _ (bitat M2)); auto. apply (req_ext R _ (rswap (r + kbar) rbar (bitat M2))); [intros; apply E3|]. apply req_rswap; lia.
      * apply (pinv_swap R cbar (bitat M2) _ (r + kbar) rbar); auto. apply (pinv_extend R (c + kbar)); auto.
      * intros _. refine (conj _ (conj V4 _)); [lia|]. rewrite E3. unfold rswap. rewrite Nat.eqb_refl. exact V5.
      * destruct (Nat.eq_dec kbar 0) as [->|]; [|lia]. destruct fresh; [|lia]. exfalso.
        destruct (HF eq_refl) as (F1 & _ & F2). rewrite H0 in HZ by reflexivity.
        rewrite <- (Nat.add_0_r c), HZ in F2 by lia. discriminate.
    + simpl in HPV. apply wp_ok. apply (HQ M2 (r + kbar) q2); auto. apply (pinv_extend R (c + kbar)); auto. lia.
Qed.

Lemma wp_echelonize_m4ri : forall R C M k (Q : mzd * nat -> Prop), okm R C M -> 0 < C ->
  1 <= echelon_k M k -> echelon_k M k <= 10 ->
  (forall M' r q, okm R C M' -> req R (bitat M) (bitat M') -> r <= R -> pinv true R C (bitat M') r q -> Q (M', r)) ->
  wp (mzd_echelonize_m4ri M k) Q.
Proof.
  intros R C M k Q HM HC Hk1 Hk2 HQ. unfold mzd_echelonize_m4ri. cbv zeta. set (K := echelon_k M k) in *. clearbody K.
  rewrite (proj1 (proj2 HM)).
  apply (wp_echelon_loop R C K (bitat M) Q Hk1 Hk2 HC HQ _ M _ (6 * K) 0 0 (fun _ => 0) false); auto; try lia; try discriminate.
  - apply req_refl.
  - refine (conj _ (conj _ (conj _ (conj _ (conj _ _))))); intros; lia.
  - intros TL HTL. apply repeat_spec in HTL. subst TL. destruct (init_ok (2 ^ K) C) as ((_ & _ & I3 & I4) & I5).
    refine (conj I3 (conj (repeat_length _ _) (conj I4 _))). intros j. apply (I5 0 j).
Qed.
