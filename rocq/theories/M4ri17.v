(** mzd_mul_m4rm, ModelM4ri2.v *)
From Coq Require Import Arith NArith ZArith List Bool Lia ZifyNat.
From Verif Require Import Base Spec LinAlg ModelM4ri SpecM4ri M4ri1 M4riD M4ri2 M4ri3 M4ri4 M4ri5 ModelM4ri2 M4ri9 M4ri11 M4ri14 M4ri16.
Import ListNotations.
Local Open Scope nat_scope.
#[local] Ltac Zify.zify_post_hook ::= Z.to_euclidean_division_equations.

Section Mul.
Variables (R K n2 : nat) (A B : mzd).
Hypothesis HA : okd R K A.
Hypothesis HB : okm K n2 B.
Hypothesis Hn2 : 1 <= n2.
(** What the result is added to *)
Variable Z : fmat.

(** Partial products: the first [s] columns of A in the rows where [s] says so *)
Definition partp (s : nat -> nat) (M : mzd) : Prop :=
  okm R n2 M /\ forall x t, x < R -> bitat M x t = xorb (Z x t) (fmul (s x) (bitat A) (bitat B) x t).

Lemma add_row_ok : forall M j ts (f : nat -> bool) (Q : mzd -> Prop), okm R n2 M -> j < R -> (forall t, In t ts -> wfr n2 t) ->
  (forall t, fxor (map (fun r => rowbit r t) ts) = f t) ->
  (forall M', okm R n2 M' -> (forall x t, bitat M' x t = if Nat.eqb x j then xorb (bitat M j t) (f t) else bitat M x t) -> Q M') ->
  wp (c <- aget (mrows M) j ;; c <- combine 0 (mwidth M) ts c ;; rs <- aset (mrows M) j c ;; Ok (with_rows M rs)) Q.
Proof.
  intros M j ts f Q HM Hj Hts Hf HQ. apply wp_bind, (wp_aget_row R n2); [exact HM|exact Hj|].
  rewrite (okm_width R n2 M HM). apply wp_bind, wp_combine; [apply HM; exact Hj|exact Hts|].
  intros c Hc Hb. pose proof HM as [_ [_ [HL _]]]. apply wp_bind, wp_aset; [lia|]. apply wp_ok, HQ.
  - apply (okm_upd R n2); auto.
  - intros x t. rewrite (bitat_upd R n2) by assumption. destruct (Nat.eqb_spec x j); [|reflexivity].
    rewrite Hb. cbn [Nat.leb]. rewrite Hf. reflexivity.
Qed.

Lemma fmul_more : forall s d x t, fmul (s + d) (bitat A) (bitat B) x t =
  xorb (fmul s (bitat A) (bitat B) x t) (xsum d (fun l => bitat A x (s + l) && bitat B (s + l) t)).
Proof. intros s d x t. unfold fmul. apply xsum_add. Qed.

(** One of the remaining tables *)
Lemma single_ok : forall Kt col k M TLs (Q : mzd * list (list (list N) * list nat) -> Prop),
  1 <= k -> k <= Kt -> Kt <= 8 -> col + k <= K -> partp (fun _ => col) M ->
  0 < length TLs -> (forall TL, In TL TLs -> tblok n2 Kt TL) ->
  (forall M' TLs', partp (fun _ => col + k) M' -> length TLs' = length TLs -> (forall TL, In TL TLs' -> tblok n2 Kt TL) -> Q (M', TLs')) ->
  wp (m4rm_single A B col k (M, TLs)) Q.
Proof.
  intros Kt col k M TLs Q Hk1 Hk2 HKt Hcol [HM HMb] HL HT HQ. unfold m4rm_single.
  apply wp_bind, (wp_aget _ _ _ ([], [])); [lia|]. set (TL := nth 0 TLs ([], [])).
  assert (HTL : tblok n2 Kt TL) by (apply HT; unfold TL; apply nth_In; lia).
  apply wp_bind, (wp_make_table K n2 B col 0 k Kt); [exact HB|lia|lia|lia|lia|lia|exact HTL|].
  intros TL' HO HS. pose proof HA as [HrA _]. rewrite HrA.
  apply wp_bind, (wp_for_up _ (fun j M' => partp (fun x => if Nat.ltb x j then col + k else col) M')); [lia| | |].
  - split; [exact HM|]. intros x t Hx. exact (HMb x t Hx).
  - intros j M1 _ Hj [HM1 H1]. apply wp_bind, (wp_read_bitsd R K); [exact HA|exact Hj|lia|lia|lia|]. intros v Hv.
    assert (Hid : N.to_nat v < 2 ^ k).
    { assert (P : N.of_nat (2 ^ k) = (2 ^ N.of_nat k)%N) by (rewrite Nat2N.inj_pow; reflexivity).
      enough (v < 2 ^ N.of_nat k)%N by lia. apply tb_lt. intros b Hb. rewrite Hv. destruct (Nat.ltb_spec b k); [lia|reflexivity]. }
    destruct (tblspec_id n2 Kt _ 0 k TL' _ HO HS Hk2 Hid) as (x & E1 & E2 & E3 & E4 & E5 & E6).
    apply wp_bind, (wp_aget _ _ _ 0); [exact E4|]. rewrite E1. apply wp_bind, (wp_aget _ _ _ []); [exact E3|].
    apply (add_row_ok M1 j [nth x (fst TL') []] (fun t => xsum k (fun l => bitat A j (col + l) && bitat B (col + l) t))); auto.
    + intros t [<-|[]]. exact E5.
    + intros t. unfold fxor. cbn [map fold_right]. rewrite xorb_false_r, E6 by lia. cbn [Nat.leb andb].
      apply xsum_ext. intros l Hl. rewrite N2Nat.id, Hv. destruct (Nat.ltb_spec l k); [reflexivity|lia].
    + intros M2 HM2 H2. split; [exact HM2|]. intros x' t Hx'. rewrite H2. destruct (Nat.eqb_spec x' j) as [->|Ne].
      * rewrite H1 by exact Hj. destruct (Nat.ltb_spec j j), (Nat.ltb_spec j (S j)); try lia. rewrite fmul_more, xorb_assoc. reflexivity.
      * rewrite H1 by exact Hx'. destruct (Nat.ltb_spec x' j), (Nat.ltb_spec x' (S j)); try lia; reflexivity.
  - intros M1 [HM1 H1]. apply wp_bind, wp_aset; [lia|]. apply wp_ok, HQ.
    + split; [exact HM1|]. intros x t Hx. rewrite H1 by exact Hx. destruct (Nat.ltb_spec x R); [reflexivity|lia].
    + apply length_upd.
    + intros TL2 HIn. apply (In_nth _ _ ([], [])) in HIn. destruct HIn as [i [Hi <-]]. rewrite length_upd in Hi.
      rewrite nth_upd by lia. destruct (Nat.eqb_spec i 0); [exact HO|]. apply HT, nth_In. exact Hi.
Qed.

(** Eight tables together *)
Lemma eight_ok : forall k col lo hi M TLs (s : nat -> nat) (Q : mzd * list (list (list N) * list nat) -> Prop),
  1 <= k -> k <= 8 -> col + 8 * k <= K -> lo <= hi -> hi <= R -> partp s M -> (forall x, lo <= x -> x < hi -> s x = col) ->
  length TLs = 8 -> (forall TL, In TL TLs -> tblok n2 k TL) ->
  (forall M' TLs', partp (fun x => if Nat.leb lo x && Nat.ltb x hi then col + 8 * k else s x) M' -> length TLs' = 8 ->
     (forall TL, In TL TLs' -> tblok n2 k TL) -> Q (M', TLs')) ->
  wp (TLs <- make_tables B col 0 (repeat k 8) TLs ;;
      C <- for_up lo hi (fun j C =>
             a <- mzd_read_bits A j col (8 * k) ;;
             ts <- table_rows a (repeat k 8) TLs ;;
             c <- aget (mrows C) j ;; c <- combine 0 (mwidth C) (map snd ts) c ;;
             rs <- aset (mrows C) j c ;; Ok (with_rows C rs)) M ;;
      Ok (C, TLs)) Q.
Proof.
  intros k col lo hi M TLs s Q Hk1 Hk2 Hcol Hlo Hhi [HM HMb] Hs HL HT HQ.
  assert (HS8 : list_sum (repeat k 8) = 8 * k) by (cbn [repeat list_sum fold_right]; lia).
  apply wp_bind, (wp_make_tables K n2 k B 0 HB ltac:(lia) ltac:(lia)).
  - rewrite repeat_length. exact HL.
  - intros k' Hk'. apply repeat_spec in Hk'. lia.
  - exact HT.
  - rewrite HS8. lia.
  - intros ts HLts HS HO. rewrite repeat_length in HLts.
    apply wp_bind, (wp_for_up _ (fun j M' => partp (fun x => if Nat.leb lo x && Nat.ltb x j then col + 8 * k else s x) M')); [lia| | |].
    + split; [exact HM|]. intros x t Hx. rewrite HMb by exact Hx.
      destruct (Nat.leb_spec lo x), (Nat.ltb_spec x lo); try lia; reflexivity.
    + intros j M1 Hj1 Hj2 [HM1 H1]. apply wp_bind, (wp_read_bitsd R K); [exact HA|lia|lia|lia|lia|]. intros v Hv.
      apply wp_bind, (wp_table_rows n2 k 0 _ _ _ _ _ ltac:(lia) HS). intros xs Hxs Hx.
      apply (add_row_ok M1 j (map snd xs) (fun t => xsum (8 * k) (fun l => bitat A j (col + l) && bitat B (col + l) t))); [exact HM1|lia| | |].
      * intros t Ht. apply in_map_iff in Ht. destruct Ht as [x [<- HIn]]. apply Hxs. exact HIn.
      * intros t. rewrite map_map, Hx by lia. cbn [Nat.leb andb]. rewrite HS8. apply xsum_ext. intros l Hl.
        rewrite Hv. destruct (Nat.ltb_spec l (8 * k)); [reflexivity|lia].
      * intros M2 HM2 H2. split; [exact HM2|]. intros x' t Hx'. rewrite H2. destruct (Nat.eqb_spec x' j) as [->|Ne].
        -- rewrite H1 by exact Hx'. destruct (Nat.leb_spec lo j), (Nat.ltb_spec j j), (Nat.ltb_spec j (S j)); try lia. cbn [andb].
           rewrite fmul_more, Hs, xorb_assoc by lia. reflexivity.
        -- rewrite H1 by exact Hx'. destruct (Nat.leb_spec lo x'), (Nat.ltb_spec x' j), (Nat.ltb_spec x' (S j)); try lia; reflexivity.
    + intros M1 H1. apply wp_ok, HQ; [exact H1|exact HLts|exact HO].
Qed.

End Mul.

Lemma m4rm_k_ok : forall kc k a b c, 2 <= m4rm_k kc k a b c /\ m4rm_k kc k a b c <= 8.
Proof.
  intros kc k a b c. unfold m4rm_k. cbv zeta.
  set (k' := if Nat.eqb k 0 then _ else _). destruct (Nat.ltb_spec k' 2); [lia|]. destruct (Nat.ltb_spec 8 k'); lia.
Qed.

Section Main.
Variables (R K n2 : nat) (A B : mzd).
Hypothesis HA : okd R K A.
Hypothesis HB : okm K n2 B.
Hypothesis Hn2 : 1 <= n2.

Lemma wp_mul_m4rm_main : forall clear kcache junk C k (Q : mzd -> Prop), okm R n2 C -> 1 <= K ->
  fits K n2 -> fits n2 K -> (forall b, length (junk b) = 64 /\ w64 (junk b)) ->
  (forall M, okm R n2 M -> (forall i j, i < R -> j < n2 -> bitat M i j = xorb (kept clear C i j) (fmul K (bitat A) (bitat B) i j)) -> Q M) ->
  wp (mul_m4rm_main clear kcache junk C A B k) Q.
Proof.
  intros clear kcache junk C k Q HC HK HF1 HF2 Hjunk HQ. unfold mul_m4rm_main. cbv zeta.
  pose proof HA as [HrA [HcA _]]. pose proof HB as [_ [HcB _]]. rewrite HrA, HcA, HcB.
  destruct (Nat.ltb n2 54 || Nat.ltb R 16); [destruct clear; apply (wp_naive_body _ R K n2); auto|].
  set (partp := partp R n2 A B (kept clear C)).
  apply wp_bind, (wp_start clear R n2); [exact HC|lia|]. intros C0 HC0 HZ.
  set (kx := m4rm_k kcache k R K n2). destruct (m4rm_k_ok kcache k R K n2) as [Hk2 Hk8]. fold kx in Hk2, Hk8.
  set (TL := (mrows (mzd_init (2 ^ kx) n2), repeat 0 (2 ^ kx))).
  assert (HTL : tblok n2 kx TL).
  { destruct (init_ok (2 ^ kx) n2) as [[_ [_ [HL HW]]] HI]. split; [exact HL|]. split; [apply repeat_length|].
    split; [exact HW|]. intros j. exact (HI 0 j). }
  set (last := K / (8 * kx)).
  assert (Hlast : 8 * kx * last <= K) by (apply Nat.mul_div_le; lia).
  assert (Hstep : forall i, i < last -> 8 * kx * i + 8 * kx <= K) by (intros i Hi; nia).
  apply wp_bind, (wp_for_up _ (fun g '(M, TLs) => partp (fun x => if Nat.ltb x (512 * g) then 8 * kx * last else 0) M /\
     length TLs = 8 /\ forall TL, In TL TLs -> tblok n2 kx TL)); [lia| | |].
  - split; [|split; [reflexivity|intros TL' H; apply repeat_spec in H; subst TL'; exact HTL]].
    split; [exact HC0|]. intros x t Hx. rewrite HZ by exact Hx. destruct (Nat.ltb_spec x (512 * 0)); [lia|].
    change (fmul 0 (bitat A) (bitat B) x t) with false. rewrite xorb_false_r. reflexivity.
  - intros g [M TLs] _ Hg [HP [HL HT]].
    set (lo := 512 * g). set (hi := Nat.min (512 * g + 512) R).
    apply (wp_for_up _ (fun i '(M, TLs) => partp (fun x => if Nat.ltb x lo then 8 * kx * last else if Nat.ltb x hi then 8 * kx * i else 0) M /\
      length TLs = 8 /\ forall TL, In TL TLs -> tblok n2 kx TL)); [lia| | |].
    + split; [|split; assumption]. destruct HP as [HM Hb]. split; [exact HM|]. intros x t Hx. rewrite Hb by exact Hx. fold lo.
      destruct (Nat.ltb_spec x lo); [reflexivity|]. rewrite Nat.mul_0_r. destruct (Nat.ltb x hi); reflexivity.
    + intros i [M1 TLs1] _ Hi [HP1 [HL1 HT1]].
      apply (eight_ok R K n2 A B HA HB Hn2 (kept clear C) kx (8 * kx * i) lo hi M1 TLs1 _ _ ltac:(lia) Hk8 (Hstep i Hi) ltac:(unfold lo, hi; lia) ltac:(unfold hi; lia) HP1); auto.
      * intros x H1 H2. destruct (Nat.ltb_spec x lo), (Nat.ltb_spec x hi); lia || reflexivity.
      * intros M2 TLs2 [HM2 Hb2] HL2 HT2. split; [|split; assumption]. split; [exact HM2|]. intros x t Hx. rewrite Hb2 by exact Hx.
        destruct (Nat.leb_spec lo x), (Nat.ltb_spec x hi), (Nat.ltb_spec x lo); cbn [andb]; try lia; try reflexivity.
        do 2 f_equal. lia.
    + intros [M1 TLs1] [[HM1 Hb1] [HL1 HT1]]. split; [|split; assumption]. split; [exact HM1|]. intros x t Hx. rewrite Hb1 by exact Hx.
      unfold lo, hi.
      destruct (Nat.ltb_spec x (512 * g)), (Nat.ltb_spec x (Nat.min (512 * g + 512) R)), (Nat.ltb_spec x (512 * S g)); try lia; reflexivity.
  - intros [M TLs] [[HM Hb] [HL HT]].
    assert (HP0 : partp (fun _ => 8 * kx * last) M).
    { split; [exact HM|]. intros x t Hx. rewrite Hb by exact Hx.
      destruct (Nat.ltb_spec x (512 * ((R + 511) / 512))); [reflexivity|lia]. }
    pose proof (Nat.div_mod K (8 * kx) ltac:(lia)) as Hdm. fold last in Hdm.
    destruct (Nat.eqb_spec (K mod (8 * kx)) 0) as [E|E].
    + apply wp_ok, HQ; [exact HM|]. intros i j Hi Hj. destruct HP0 as [_ HP0]. rewrite HP0 by exact Hi. do 2 f_equal. lia.
    + pose proof (Nat.div_mod K kx ltac:(lia)) as Hdk. pose proof (Nat.mod_upper_bound K kx ltac:(lia)) as Hmk.
      assert (Hl8 : 8 * last <= K / kx) by (apply Nat.div_le_lower_bound; lia).
      apply wp_bind, (wp_for_up _ (fun i '(M, TLs) => partp (fun _ => kx * i) M /\ length TLs = 8 /\ forall TL, In TL TLs -> tblok n2 kx TL)); [exact Hl8| | |].
      * split; [|split; assumption]. destruct HP0 as [_ HP0]. split; [exact HM|]. intros x t Hx. rewrite HP0 by exact Hx. do 2 f_equal. lia.
      * intros i [M1 TLs1] _ Hi [HP1 [HL1 HT1]]. apply (single_ok R K n2 A B HA HB Hn2 (kept clear C) kx); auto; try lia; [nia|].
        intros M2 TLs2 [HM2 Hb2] HL2 HT2. split; [|split; [lia|assumption]]. split; [exact HM2|].
        intros x t Hx. rewrite Hb2 by exact Hx. do 2 f_equal. lia.
      * intros [M1 TLs1] [HP1 [HL1 HT1]]. destruct (Nat.eqb_spec (K mod kx) 0) as [E2|E2].
        -- destruct HP1 as [HM1 Hb1]. apply wp_ok, HQ; [exact HM1|]. intros i j Hi Hj. rewrite Hb1 by exact Hi. do 2 f_equal. lia.
        -- apply wp_bind, (single_ok R K n2 A B HA HB Hn2 (kept clear C) kx); auto; try lia. intros M2 TLs2 [HM2 Hb2] _ _. apply wp_ok, HQ; [exact HM2|].
           intros i j Hi Hj. rewrite Hb2 by exact Hi. do 2 f_equal. lia.
Qed.

End Main.

Lemma wp_mul_m4rm : forall R K n2 kcache junk A B k (Q : mzd -> Prop), okm R K A -> okm K n2 B -> 1 <= K -> 1 <= n2 ->
  fits K n2 -> fits n2 K -> (forall b, length (junk b) = 64 /\ w64 (junk b)) ->
  (forall M, okm R n2 M -> (forall i j, i < R -> j < n2 -> bitat M i j = fmul K (bitat A) (bitat B) i j) -> Q M) ->
  wp (mzd_mul_m4rm kcache junk A B k) Q.
Proof.
  intros R K n2 kcache junk A B k Q HA HB HK Hn2 HF1 HF2 Hj HQ. unfold mzd_mul_m4rm.
  pose proof HA as [HrA [HcA _]]. pose proof HB as [HrB [HcB _]]. rewrite HrA, HcA, HrB, HcB, Nat.eqb_refl. cbn [negb].
  apply (wp_mul_m4rm_main R K n2); auto; [apply init_ok|].
  intros M HM H. apply HQ; [exact HM|]. intros i j Hi Hj'. rewrite H by assumption. apply xorb_false_l.
Qed.
