(** Permutations of columns *)
From Coq Require Import Arith NArith ZArith List Bool Lia ZifyNat.
From Verif Require Import Base Spec LinAlg ModelM4ri SpecM4ri M4ri1 M4riD ModelM4ri2 SpecM4ri2 ModelStrassen ModelTri ModelPle SpecTri SpecPle Ple1 Ple2.
Import ListNotations.
#[local] Ltac Zify.zify_post_hook ::= Z.to_euclidean_division_equations.

Lemma swap_entries : forall (p : list nat) i v x, i < length p -> v < length p -> x < length p ->
  nth x (upd (upd p i (nth v p 0)) v (nth i p 0)) 0 = nth (tr i v x) p 0.
Proof.
  intros p i v x Hi Hv Hx. rewrite !nth_upd by (rewrite ?length_upd; assumption). unfold tr.
  destruct (Nat.eqb_spec x v), (Nat.eqb_spec x i); subst; try reflexivity; try lia.
Qed.

Definition pmap (notrans : bool) (P : list nat) (len x : nat) : nat := if notrans then iperm (at_ P) len x else perm (at_ P) len x.

Lemma pmap_lt : forall notrans P C len x, len <= C -> (forall i, i < len -> at_ P i < C) -> x < C -> pmap notrans P len x < C.
Proof.
  intros [] P C len x Hl H Hx; unfold pmap; [apply iperm_lt|apply perm_lt]; try assumption; intros i Hi; (split; [lia|apply H, Hi]).
Qed.

Lemma col_permutation_ok : forall P C len notrans (Q : list nat -> Prop), len <= C -> len <= length P -> (forall i, i < len -> at_ P i < C) ->
  (forall p, length p = C -> (forall x, x < C -> nth x p 0 = pmap notrans P len x) -> Q p) -> wp (col_permutation P C len 0 notrans) Q.
Proof.
  intros P C len notrans Q HC HL HP HQ. unfold col_permutation. destruct notrans.
  - apply (wp_for_up _ (fun i p => length p = C /\ forall x, x < C -> nth (iperm (at_ P) (len - i) x) p 0 = iperm (at_ P) len x)).
    + lia.
    + split; [apply seq_length|]. intros x Hx. rewrite Nat.sub_0_r. rewrite seq_nth; [reflexivity|]. apply iperm_lt; [|exact Hx]. intros i Hi. split; [lia|apply HP, Hi].
    + intros i p _ Hi [L E]. pose proof (HP (len - i - 1) ltac:(lia)) as Hv.
      apply wp_bind, (wp_aget _ _ _ 0); [lia|]. fold (at_ P (len - i - 1)). apply wp_bind, (wp_aget _ _ _ 0); [lia|]. apply wp_bind, (wp_aget _ _ _ 0); [lia|].
      apply wp_bind, wp_aset; [lia|]. apply wp_aset; [rewrite length_upd; lia|]. split; [rewrite !length_upd; exact L|]. intros x Hx.
      rewrite swap_entries; try lia.
      * rewrite <- E by exact Hx. replace (len - i) with (S (len - i - 1)) by lia. replace (len - S i) with (len - i - 1) by lia. cbn [iperm]. f_equal.
        replace (S (len - i - 1) - 1) with (len - i - 1) by lia. reflexivity.
      * rewrite L. apply iperm_lt; [|exact Hx]. intros k Hk. split; [lia|]. apply HP. lia.
    + intros p [L E]. apply HQ; [exact L|]. intros x Hx. unfold pmap. rewrite <- E by exact Hx. replace (len - len) with 0 by lia. reflexivity.
  - apply (wp_for_up _ (fun i p => length p = C /\ forall x, x < C -> nth x p 0 = perm (at_ P) i x)).
    + lia.
    + split; [apply seq_length|]. intros x Hx. rewrite seq_nth by exact Hx. reflexivity.
    + intros i p _ Hi [L E]. pose proof (HP i Hi) as Hv.
      apply wp_bind, (wp_aget _ _ _ 0); [lia|]. fold (at_ P i). apply wp_bind, (wp_aget _ _ _ 0); [lia|]. apply wp_bind, (wp_aget _ _ _ 0); [lia|].
      apply wp_bind, wp_aset; [lia|]. apply wp_aset; [rewrite length_upd; lia|]. split; [rewrite !length_upd; exact L|]. intros x Hx.
      rewrite swap_entries by lia. rewrite E by (apply tr_lt; lia). reflexivity.
    + intros p [L E]. apply HQ; assumption.
Qed.

Lemma write_masks_ok : forall R C M p (Q : list N -> Prop), okm R C M -> 0 < C -> length p = C ->
  (forall ms, length ms = wwidth C -> (forall k b, k < wwidth C -> tb (rw ms k) b = Nat.ltb b 64 && (Nat.leb C (64 * k + b) || Nat.eqb (nth (64 * k + b) p 0) (64 * k + b))) -> Q ms) ->
  wp (write_masks M p) Q.
Proof.
  intros R C M p Q HM HC L HQ. unfold write_masks. rewrite (okm_width R C M HM). pose proof HM as (_ & M2 & _). rewrite M2. cbv zeta.
  pose proof (wwidth_pos C HC) as Hw. apply wp_bind.
  apply (wp_for_up _ (fun c ms => length ms = wwidth C /\ forall k b, tb (rw ms k) b = Nat.ltb b 64 && Nat.ltb (64 * k + b) c && Nat.eqb (nth (64 * k + b) p 0) (64 * k + b))).
  - lia.
  - split; [apply repeat_length|]. intros k b. rewrite rw_repeat, tb_0. destruct (Nat.ltb_spec (64 * k + b) 0); [lia|]. rewrite andb_false_r. reflexivity.
  - intros c ms _ Hc [Lm E]. pose proof (wwidth_lt C c Hc) as Hcw. apply wp_bind, (wp_aget _ _ _ 0); [lia|].
    destruct (Nat.eqb_spec (nth c p 0) c) as [Ec|Ec].
    + apply wp_bind, (wp_aget _ _ _ 0%N); [lia|]. fold (rw ms (c / 64)). apply wp_aset; [lia|]. split; [rewrite length_upd; exact Lm|]. intros k b.
      rewrite rw_upd by lia. destruct (Nat.eqb_spec k (c / 64)) as [->|Hk].
      * rewrite tb_lor, E, tb_bit. destruct (Nat.eqb_spec b (c mod 64)) as [->|Hb].
        -- rewrite orb_true_r. replace (64 * (c / 64) + c mod 64) with c by lia. rewrite Ec, Nat.eqb_refl.
           destruct (Nat.ltb_spec (c mod 64) 64), (Nat.ltb_spec c (S c)); lia || reflexivity.
        -- rewrite orb_false_r. destruct (Nat.ltb_spec b 64); [|reflexivity].
           destruct (Nat.ltb_spec (64 * (c / 64) + b) c), (Nat.ltb_spec (64 * (c / 64) + b) (S c)); lia || reflexivity.
      * rewrite E. destruct (Nat.ltb_spec b 64); [|reflexivity].
        destruct (Nat.ltb_spec (64 * k + b) c), (Nat.ltb_spec (64 * k + b) (S c)); lia || reflexivity.
    + apply wp_ok. split; [exact Lm|]. intros k b. rewrite E.
      destruct (Nat.ltb_spec (64 * k + b) c), (Nat.ltb_spec (64 * k + b) (S c)); try lia; try reflexivity.
      assert (64 * k + b = c) as -> by lia. destruct (Nat.eqb_spec (nth c p 0) c); [lia|]. rewrite !andb_false_r. reflexivity.
  - intros ms [Lm E]. destruct (Nat.eqb_spec (wwidth C) 0); [lia|]. apply wp_bind, (wp_aget _ _ _ 0%N); [lia|]. fold (rw ms (wwidth C - 1)).
    apply wp_aset; [lia|]. apply HQ; [rewrite length_upd; exact Lm|]. intros k b Hk. rewrite rw_upd by lia.
    destruct (Nat.eqb_spec k (wwidth C - 1)) as [->|Hk'].
    + rewrite tb_lor, E, tb_ldiff, tb_ffff, (tb_high R C) by assumption. unfold wwidth in *.
      destruct (Nat.ltb_spec b 64); [|reflexivity]. cbn [andb].
      destruct (Nat.ltb_spec (64 * ((C + 63) / 64 - 1) + b) C), (Nat.leb_spec C (64 * ((C + 63) / 64 - 1) + b)); try lia; cbn [andb orb negb]; try reflexivity; rewrite orb_false_r; reflexivity.
    + rewrite E. unfold wwidth in *. destruct (Nat.ltb_spec b 64); [|reflexivity]. cbn [andb].
      destruct (Nat.ltb_spec (64 * k + b) C), (Nat.leb_spec C (64 * k + b)); try lia; reflexivity.
Qed.

Lemma gather_ok : forall C brow p i todo (Q : N -> Prop), length brow = wwidth C -> length p = C -> i + todo <= C -> todo <= 64 ->
  (forall x, x < C -> nth x p 0 < C) ->
  (forall v, (forall b, tb v b = Nat.ltb b todo && rowbit brow (nth (i + b) p 0)) -> Q v) -> wp (gather brow p i todo) Q.
Proof.
  intros C brow p i todo Q HL HP Hi Ht Hp HQ. unfold gather.
  apply (wp_for_up _ (fun k v => forall b, tb v b = Nat.ltb b k && rowbit brow (nth (i + b) p 0))).
  - lia.
  - intros b. rewrite tb_0. reflexivity.
  - intros k v _ Hk E. apply wp_bind, (wp_aget _ _ _ 0); [lia|]. set (c := nth (i + k) p 0). assert (Hc : c < C) by (apply Hp; lia).
    pose proof (wwidth_lt C c Hc). pose proof (Nat.mod_upper_bound c 64 ltac:(lia)) as Hm. apply wp_bind, (wp_aget _ _ _ 0%N); [lia|]. fold (rw brow (c / 64)). cbv zeta.
    apply wp_bind, wp_shr; [exact Hm|]. intros y Ey. apply wp_bind, wp_shl; [lia|]. intros z Ez. apply wp_ok. intros b. rewrite tb_lor, E, Ez, Ey, tb_land, tb_bit.
    destruct (Nat.lt_trichotomy b k) as [G|[->|G]].
    + destruct (Nat.ltb_spec b k), (Nat.ltb_spec b (S k)), (Nat.leb_spec k b); try lia. rewrite orb_false_r. reflexivity.
    + destruct (Nat.ltb_spec k k), (Nat.ltb_spec k (S k)), (Nat.leb_spec k k), (Nat.ltb_spec k 64); try lia. replace (k - k) with 0 by lia. rewrite Nat.add_0_l, Nat.eqb_refl.
      rewrite !andb_true_r. cbn [andb orb]. fold c. rewrite rowbit_tb. reflexivity.
    + destruct (Nat.ltb_spec b k), (Nat.ltb_spec b (S k)), (Nat.leb_spec k b); try lia.
      destruct (Nat.eqb_spec (b - k + c mod 64) (c mod 64)); [lia|]. rewrite andb_false_r. reflexivity.
  - intros v E. apply HQ. exact E.
Qed.

(** What becomes of column j *)
Definition moved (len : nat) (p : nat -> nat) (f : fvec) (j : nat) : bool :=
  if Nat.ltb j len then f (p j) else Nat.eqb (p j) j && f j.

Lemma apply_p_right_even_ok : forall R C M P notrans len (Q : mzd -> Prop), okm R C M -> 0 < C -> len = Nat.min (length P) C ->
  (forall i, i < len -> at_ P i < C) ->
  (forall M', okm R C M' -> (forall i j, i < R -> j < C -> bitat M' i j = moved len (pmap notrans P len) (bitat M i) j) -> Q M') ->
  wp (apply_p_right_even M P 0 0 notrans) Q.
Proof.
  intros R C M P notrans len Q HM HC Hlen HP HQ. unfold apply_p_right_even. pose proof HM as (M1 & M2 & _). rewrite M1, M2, (okm_width R C M HM), Nat.sub_0_r.
  destruct (Nat.eqb_spec R 0) as [->|HR]. { apply wp_ok, HQ; [exact HM|]. intros; lia. }
  pose proof (wwidth_pos C HC) as Hw. destruct (Nat.eqb_spec (wwidth C) 0); [lia|]. cbv zeta. rewrite <- Hlen.
  apply wp_bind, col_permutation_ok; [lia|lia|exact HP|]. intros p Lp Ep.
  assert (Hp : forall x, x < C -> nth x p 0 < C) by (intros x Hx; rewrite Ep by exact Hx; apply pmap_lt; auto; lia).
  apply wp_bind, (write_masks_ok R C M p); auto. intros ms Lms Ems.
  apply (wp_for_up _ (fun r M' => okm R C M' /\ forall i j, i < R -> j < C -> bitat M' i j = if Nat.ltb i r then moved len (pmap notrans P len) (bitat M i) j else bitat M i j)).
  - lia.
  - split; [exact HM|]. reflexivity.
  - intros r M' _ Hr [HM' E]. rewrite (okm_width R C M' HM'). apply wp_bind, (wp_aget_row R C); [exact HM'|exact Hr|].
    pose proof HM' as (_ & _ & L' & W'). specialize (W' r Hr). set (brow := nth r (mrows M') []) in *. pose proof W' as [Lb Wb].
    apply wp_bind, (wp_row_loop 0 (wwidth C) _ (fun k x => N.land x (rw ms k))); [lia| |].
    { intros k Hk1 Hk2. apply wp_bind, (wp_aget _ _ _ 0%N); [lia|]. apply wp_ok. reflexivity. }
    intros arow La Ea. apply wp_bind.
    apply (wp_for_up _ (fun w a => length a = wwidth C /\ forall k b, k < wwidth C -> tb (rw a k) b =
        Nat.ltb b 64 && Nat.ltb (64 * k + b) C && (if Nat.ltb k w then moved len (pmap notrans P len) (rowbit brow) (64 * k + b)
          else Nat.eqb (nth (64 * k + b) p 0) (64 * k + b) && rowbit brow (64 * k + b)))).
    + lia.
    + split; [lia|]. intros k b Hk. rewrite Ea. destruct (Nat.leb_spec 0 k), (Nat.ltb_spec k (wwidth C)); try lia. cbn [andb]. rewrite tb_land, Ems by exact Hk.
      destruct (Nat.ltb_spec b 64) as [Hb|Hb]; cbn [andb]; [|apply andb_false_r].
      rewrite rowbit_rw by exact Hb. destruct (Nat.ltb_spec (64 * k + b) C), (Nat.leb_spec C (64 * k + b)); try lia; cbn [andb orb].
      * destruct (Nat.ltb_spec k 0); [lia|]. apply andb_comm.
      * rewrite (wfr_tb C) by (try exact W'; intros; lia). reflexivity.
    + intros w a _ Hw2 [La2 Ea2]. assert (Hww : w < wwidth C) by (unfold wwidth; lia).
      apply wp_bind, (wp_aget _ _ _ 0%N); [lia|]. fold (rw ms w). destruct (N.eqb_spec (rw ms w) ffff) as [Ef|Ef].
      * apply wp_ok. split; [exact La2|]. intros k b Hk. rewrite Ea2 by exact Hk. destruct (Nat.ltb_spec b 64); [|reflexivity].
        destruct (Nat.ltb_spec (64 * k + b) C); [|reflexivity]. cbn [andb].
        destruct (Nat.ltb_spec k w), (Nat.ltb_spec k (S w)); try lia; try reflexivity. assert (k = w) by lia. subst k.
        pose proof (Ems w b Hk) as Eb. rewrite Ef, tb_ffff in Eb. destruct (Nat.ltb_spec b 64); [|lia]. destruct (Nat.leb_spec C (64 * w + b)); [lia|]. cbn [andb orb] in Eb.
        symmetry in Eb. apply Nat.eqb_eq in Eb. rewrite Eb, Nat.eqb_refl. rewrite Ep in Eb by assumption. unfold moved. rewrite Eb, Nat.eqb_refl. destruct (Nat.ltb (64 * w + b) len); reflexivity.
      * apply wp_bind, (gather_ok C); [exact Lb|exact Lp|lia|lia|exact Hp|]. intros v Ev. apply wp_bind, (wp_aget _ _ _ 0%N); [lia|]. fold (rw a w).
        apply wp_aset; [lia|]. split; [rewrite length_upd; exact La2|]. intros k b Hk. rewrite rw_upd by lia. destruct (Nat.eqb_spec k w) as [->|Hkw].
        -- rewrite tb_lor, Ea2, Ev by exact Hk. destruct (Nat.ltb_spec w w), (Nat.ltb_spec w (S w)); try lia.
           destruct (Nat.ltb_spec b 64), (Nat.ltb_spec (64 * w + b) C), (Nat.ltb_spec b (Nat.min 64 (len - 64 * w))); try lia; cbn [andb orb]; try reflexivity; unfold moved.
           ++ destruct (Nat.ltb_spec (64 * w + b) len); [|lia]. rewrite Ep by assumption. destruct (Nat.eqb_spec (pmap notrans P len (64 * w + b)) (64 * w + b)) as [->|]; cbn [andb orb]; [|reflexivity].
              destruct (rowbit brow (64 * w + b)); reflexivity.
           ++ destruct (Nat.ltb_spec (64 * w + b) len); [lia|]. rewrite orb_false_r, Ep by assumption. reflexivity.
        -- rewrite Ea2 by exact Hk. destruct (Nat.ltb_spec k w), (Nat.ltb_spec k (S w)); try lia; reflexivity.
    + intros a [La2 Ea2].
      assert (Ef : forall k b, k < wwidth C -> tb (rw a k) b = Nat.ltb b 64 && Nat.ltb (64 * k + b) C && moved len (pmap notrans P len) (rowbit brow) (64 * k + b)).
      { intros k b Hk. rewrite Ea2 by exact Hk. destruct (Nat.ltb_spec b 64); [|reflexivity]. destruct (Nat.ltb_spec (64 * k + b) C); [|reflexivity]. cbn [andb].
        destruct (Nat.ltb_spec k ((len + 63) / 64)); [reflexivity|]. unfold moved. destruct (Nat.ltb_spec (64 * k + b) len); [lia|]. rewrite Ep by assumption. reflexivity. }
      assert (Wa : wfr C a).
      { split; [exact La2|]. intros k b Hb. destruct (Nat.lt_ge_cases k (wwidth C)) as [G|G].
        - rewrite Ef in Hb by exact G. apply andb_true_iff in Hb as [Hb _]. apply andb_true_iff in Hb as [H1 H2]. apply Nat.ltb_lt in H1, H2. split; assumption.
        - unfold rw in Hb. rewrite nth_overflow in Hb by lia. rewrite tb_0 in Hb. discriminate. }
      apply wp_bind, wp_aset; [lia|]. apply wp_ok. split; [apply okm_upd; assumption|]. intros i j Hi Hj. rewrite (bitat_upd R C) by assumption.
      destruct (Nat.eqb_spec i r) as [->|Hir].
      * destruct (Nat.ltb_spec r (S r)); [|lia]. rewrite rowbit_tb, Ef by (apply wwidth_lt; exact Hj). replace (64 * (j / 64) + j mod 64) with j by lia.
        destruct (Nat.ltb_spec (j mod 64) 64), (Nat.ltb_spec j C); try lia. cbn [andb].
        assert (EB : forall y, y < C -> rowbit brow y = bitat M r y).
        { intros y Hy. change (rowbit brow y) with (bitat M' r y). rewrite E by assumption. destruct (Nat.ltb_spec r r); [lia|reflexivity]. }
        unfold moved. destruct (Nat.ltb_spec j len); [apply EB, pmap_lt; auto; lia|]. rewrite EB by exact Hj. reflexivity.
      * rewrite E by assumption. destruct (Nat.ltb_spec i r), (Nat.ltb_spec i (S r)); lia || reflexivity.
  - intros M' [HM' E]. apply HQ; [exact HM'|]. intros i j Hi Hj. rewrite E by assumption. destruct (Nat.ltb_spec i R); [reflexivity|lia].
Qed.

(** ** mzd_apply_p_right_trans_tri *)
(** The transpositions that reach row x: those with an index above x *)
Fixpoint perm_above (x : nat) (P : nat -> nat) (n : nat) (y : nat) : nat :=
  match n with O => y | S k => if Nat.ltb x k then perm_above x P k (tr k (P k) y) else perm_above x P k y end.

Lemma trans_tri_ok : forall R C M P step (Q : mzd -> Prop), okm R C M -> 0 < C -> 0 < step -> swaps C P ->
  (forall M', okm R C M' -> (forall i j, i < R -> j < C -> bitat M' i j = bitat M i (perm_above i (at_ P) C j)) -> Q M') ->
  wp (mzd_apply_p_right_trans_tri step M P) Q.
Proof.
  intros R C M P step Q HM HC Hs [LP HP] HQ. unfold mzd_apply_p_right_trans_tri. pose proof HM as (M1 & M2 & _).
  rewrite M1, M2, (okm_width R C M HM), LP, Nat.eqb_refl. pose proof (wwidth_pos C HC).
  destruct (Nat.eqb_spec (wwidth C) 0); [lia|]. destruct (Nat.eqb_spec step 0); [lia|]. cbn [negb orb].
  set (nb := (R + step - 1) / step).
  assert (Hnb : R <= step * nb) by (unfold nb; clear - Hs; pose proof (Nat.div_mod_eq (R + step - 1) step); pose proof (Nat.mod_upper_bound (R + step - 1) step ltac:(lia)); lia).
  clearbody nb.
  apply (wp_for_up _ (fun b M' => okm R C M' /\ forall i j, i < R -> j < C -> bitat M' i j = if Nat.ltb i (step * b) then bitat M i (perm_above i (at_ P) C j) else bitat M i j)).
  - lia.
  - split; [exact HM|]. intros i j _ _. destruct (Nat.ltb_spec i (step * 0)); [lia|reflexivity].
  - intros b M' _ Hb [HM' E]. cbv zeta. pose proof HM' as (N1 & N2 & _). rewrite N1, N2.
    apply (wp_for_up _ (fun k M2 => okm R C M2 /\ forall i j, i < R -> j < C -> bitat M2 i j =
       if Nat.leb (step * b) i && Nat.ltb i (step * b + step) then bitat M' i (perm_above i (at_ P) k j) else bitat M' i j)).
    + lia.
    + split; [exact HM'|]. intros i j _ _. cbn [perm_above]. destruct (Nat.leb (step * b) i && Nat.ltb i (step * b + step)); reflexivity.
    + intros k M2' _ Hk [HM2 E2]. destruct (HP k Hk) as [G1 G2]. apply wp_bind, (wp_aget _ _ _ 0); [lia|]. fold (at_ P k) in *.
      destruct (Nat.ltb_spec (at_ P k) k); [lia|]. apply (col_swap_in_rows_ok R C); [exact HM2|lia|lia|lia|]. intros M3 HM3 E3. split; [exact HM3|].
      intros i j Hi Hj. rewrite E3. rewrite !E2 by (try apply tr_lt; lia). cbn [perm_above].
      destruct (Nat.leb_spec (step * b) i), (Nat.ltb_spec i (step * b + step)), (Nat.ltb_spec i (Nat.min (Nat.min (step * b + step) R) k)), (Nat.ltb_spec i k); try lia; cbn [andb]; reflexivity.
    + intros M3 [HM3 E3]. split; [exact HM3|]. intros i j Hi Hj. rewrite E3 by assumption. replace (step * S b) with (step * b + step) by lia.
      destruct (Nat.leb_spec (step * b) i), (Nat.ltb_spec i (step * b + step)); cbn [andb].
      * assert (Hlt : perm_above i (at_ P) C j < C).
        { clear - HP Hj. assert (X : forall k y, k <= C -> y < C -> perm_above i (at_ P) k y < C); [|apply X; lia].
          induction k as [|k IH]; intros y Hk Hy; cbn [perm_above]; [exact Hy|]. destruct (HP k ltac:(lia)). unfold at_ at 2.
          destruct (Nat.ltb i k); apply IH; try lia. apply tr_lt; lia. }
        rewrite E by assumption. destruct (Nat.ltb_spec i (step * b)); [lia|reflexivity].
      * rewrite E by assumption. destruct (Nat.ltb_spec i (step * b)); [lia|reflexivity].
      * rewrite E by assumption. destruct (Nat.ltb_spec i (step * b)); [reflexivity|lia].
      * lia.
  - intros M' [HM' E]. apply HQ; [exact HM'|]. intros i j Hi Hj. rewrite E by assumption. destruct (Nat.ltb_spec i (step * nb)); [reflexivity|lia].
Qed.
