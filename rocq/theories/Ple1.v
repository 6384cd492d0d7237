(** Permutations; what the functions that apply them do *)
From Coq Require Import Arith NArith ZArith List Bool Lia ZifyNat.
From Verif Require Import Base Spec LinAlg ModelM4ri SpecM4ri M4ri1 M4riD ModelM4ri2 SpecM4ri2 ModelStrassen ModelTri ModelPle SpecTri SpecPle.
Import ListNotations.
#[local] Ltac Zify.zify_post_hook ::= Z.to_euclidean_division_equations.

(** ** Permutations *)
Ltac eqcase := repeat match goal with |- context [Nat.eqb ?a ?b] => destruct (Nat.eqb_spec a b); subst end.

Lemma tr_invol : forall a b x, tr a b (tr a b x) = x.
Proof.
  intros. unfold tr. destruct (Nat.eqb_spec x a) as [->|]; [|destruct (Nat.eqb_spec x b) as [->|]]; eqcase; congruence || reflexivity.
Qed.
Lemma tr_lt : forall n a b x, a < n -> b < n -> x < n -> tr a b x < n.
Proof. intros. unfold tr. eqcase; assumption. Qed.
Lemma tr_same : forall a x, tr a a x = x.
Proof. intros. unfold tr. eqcase; reflexivity. Qed.
Lemma perm_iperm : forall P n x, perm P n (iperm P n x) = x.
Proof. induction n; intros; cbn [perm iperm]; [reflexivity|]. rewrite tr_invol. apply IHn. Qed.
Lemma iperm_perm : forall P n x, iperm P n (perm P n x) = x.
Proof. induction n; intros; cbn [perm iperm]; [reflexivity|]. rewrite IHn. apply tr_invol. Qed.
Lemma perm_lt : forall N P n x, (forall i, i < n -> i < N /\ P i < N) -> x < N -> perm P n x < N.
Proof.
  intros N P n. induction n; intros x H Hx; cbn [perm]; [exact Hx|]. apply IHn; [intros; apply H; lia|].
  destruct (H n) as [? ?]; [lia|]. apply tr_lt; assumption.
Qed.
Lemma iperm_lt : forall N P n x, (forall i, i < n -> i < N /\ P i < N) -> x < N -> iperm P n x < N.
Proof.
  intros N P n. induction n; intros x H Hx; cbn [iperm]; [exact Hx|].
  destruct (H n) as [? ?]; [lia|]. apply tr_lt; try assumption. apply IHn; [intros; apply H; lia|exact Hx].
Qed.
Lemma perm_ext : forall P P' n x, (forall i, i < n -> P i = P' i) -> perm P n x = perm P' n x.
Proof.
  intros P P' n. induction n; intros x H; cbn [perm]; [reflexivity|]. rewrite H by lia. apply IHn. intros. apply H. lia.
Qed.
(** Transpositions of a thing with itself *)
Lemma perm_tail : forall P n m x, n <= m -> (forall i, n <= i -> i < m -> P i = i) -> perm P m x = perm P n x.
Proof.
  intros P n m. induction m; intros x Hn H; [replace n with 0 by lia; reflexivity|].
  destruct (Nat.eq_dec n (S m)) as [->|]; [reflexivity|]. cbn [perm]. rewrite (H m) by lia. rewrite tr_same. apply IHm; [lia|]. intros; apply H; lia.
Qed.

Lemma xsum_bij : forall N p q f, (forall x, x < N -> p x < N /\ q x < N /\ q (p x) = x /\ p (q x) = x) ->
  xsum N (fun x => f (p x)) = xsum N f.
Proof.
  intros N p q f H.
  transitivity (xsum N (fun x => xsum N (fun y => fid (p x) y && f y))).
  { apply xsum_ext. intros x Hx. symmetry. apply (xsum_fid_l N (p x) f). apply H, Hx. }
  rewrite xsum_swap. apply xsum_ext. intros y Hy. rewrite xsum_andb_r.
  rewrite (xsum_single N (q y) (fun k => fid (p k) y)).
  - unfold fid. destruct (H y Hy) as (_ & _ & _ & ->). rewrite Nat.eqb_refl. reflexivity.
  - apply H, Hy.
  - intros k Hk Hne. unfold fid. destruct (Nat.eqb_spec (p k) y); [|reflexivity]. exfalso. subst y. apply Hne.
    destruct (H k Hk) as (_ & _ & -> & _). reflexivity.
Qed.
Lemma xsum_perm : forall N P n f, (forall i, i < n -> i < N /\ P i < N) -> xsum N (fun x => f (perm P n x)) = xsum N f.
Proof.
  intros N P n f H. apply (xsum_bij N (perm P n) (iperm P n)). intros x Hx.
  repeat split; [apply perm_lt|apply iperm_lt|apply iperm_perm|apply perm_iperm]; assumption.
Qed.
Lemma xsum_iperm : forall N P n f, (forall i, i < n -> i < N /\ P i < N) -> xsum N (fun x => f (iperm P n x)) = xsum N f.
Proof.
  intros N P n f H. apply (xsum_bij N (iperm P n) (perm P n)). intros x Hx.
  repeat split; [apply iperm_lt|apply perm_lt|apply perm_iperm|apply iperm_perm]; assumption.
Qed.

Lemma rswap_tr : forall a b (A : fmat) i j, rswap a b A i j = A (tr a b i) j.
Proof. reflexivity. Qed.

(** ** Rows *)
Lemma apply_p_left_ok : forall R C M P n (Q : mzd -> Prop), okm R C M -> 0 < C -> n = Nat.min (length P) R ->
  (forall i, i < n -> i <= at_ P i /\ at_ P i < R) ->
  (forall M', okm R C M' -> (forall x j, bitat M' x j = bitat M (perm (at_ P) n x) j) -> Q M') -> wp (mzd_apply_p_left M P) Q.
Proof.
  intros R C M P n Q HM HC Hn HP HQ. unfold mzd_apply_p_left. pose proof HM as (H1 & H2 & _). rewrite H1, H2, <- Hn.
  destruct (Nat.eqb_spec C 0); [lia|].
  apply (wp_for_up _ (fun i M' => okm R C M' /\ forall x j, bitat M' x j = bitat M (perm (at_ P) i x) j)).
  - lia.
  - split; [exact HM|reflexivity].
  - intros i M' _ Hi [HM' E]. destruct (HP i Hi) as [G1 G2]. apply wp_bind, (wp_aget _ _ _ 0); [lia|]. fold (at_ P i).
    destruct (Nat.ltb_spec (at_ P i) i); [lia|]. apply (wp_row_swap R C); auto; [lia|]. intros M2 HM2 E2. split; [exact HM2|].
    intros x j. rewrite E2, rswap_tr, E. reflexivity.
  - intros M' [HM' E]. apply HQ; assumption.
Qed.
Lemma apply_p_left_trans_ok : forall R C M P n (Q : mzd -> Prop), okm R C M -> 0 < C -> n = Nat.min (length P) R ->
  (forall i, i < n -> i <= at_ P i /\ at_ P i < R) ->
  (forall M', okm R C M' -> (forall x j, bitat M' x j = bitat M (iperm (at_ P) n x) j) -> Q M') -> wp (mzd_apply_p_left_trans M P) Q.
Proof.
  intros R C M P n Q HM HC Hn HP HQ. unfold mzd_apply_p_left_trans. pose proof HM as (H1 & H2 & _). rewrite H1, H2, <- Hn.
  destruct (Nat.eqb_spec C 0); [lia|].
  apply (wp_for_down _ (fun i M' => okm R C M' /\ forall x j, bitat M' (iperm (at_ P) i x) j = bitat M (iperm (at_ P) n x) j)).
  - lia.
  - split; [exact HM|reflexivity].
  - intros i M' _ Hi [HM' E]. destruct (HP i Hi) as [G1 G2]. apply wp_bind, (wp_aget _ _ _ 0); [lia|]. fold (at_ P i).
    destruct (Nat.ltb_spec (at_ P i) i); [lia|]. apply (wp_row_swap R C); auto; [lia|]. intros M2 HM2 E2. split; [exact HM2|].
    intros x j. rewrite E2, rswap_tr. apply E.
  - intros M' [HM' E]. apply HQ; assumption.
Qed.

(** ** Columns *)
Lemma row_of_bits : forall C row row' p, length row' = wwidth C -> wfr C row -> (forall j, j < C -> p j < C) -> (forall j, p (p j) = j) ->
  (forall k t, tb (rw row' k) t = Nat.ltb t 64 && rowbit row (p (64 * k + t))) -> wfr C row' /\ forall j, rowbit row' j = rowbit row (p j).
Proof.
  intros C row row' p HL HW Hp Hpp E. split.
  - split; [exact HL|]. intros k t H. rewrite E in H. apply andb_true_iff in H as [H1 H2]. apply Nat.ltb_lt in H1. split; [exact H1|].
    destruct (Nat.lt_ge_cases (64 * k + t) C) as [|G]; [assumption|]. exfalso.
    destruct (Nat.lt_ge_cases (p (64 * k + t)) C) as [G'|G'].
    + apply Hp in G'. rewrite Hpp in G'. lia.
    + rewrite (wfr_zero C row _ HW G') in H2. discriminate.
  - intros j. rewrite rowbit_tb, E, <- Nat.div_mod_eq. destruct (Nat.ltb_spec (j mod 64) 64); [reflexivity|].
    pose proof (Nat.mod_upper_bound j 64). lia.
Qed.

Ltac bcase2 := repeat match goal with
  | |- context [if Nat.eqb ?a ?b then _ else _] => destruct (Nat.eqb_spec a b)
  | |- context [Nat.eqb ?a ?b] => destruct (Nat.eqb_spec a b)
  | |- context [Nat.ltb ?a ?b] => destruct (Nat.ltb_spec a b)
  | |- context [Nat.leb ?a ?b] => destruct (Nat.leb_spec a b) end.

Lemma row_col_swap_ok : forall C row a b (Q : list N -> Prop), wfr C row -> a < C -> b < C -> a <> b ->
  (forall row', wfr C row' -> (forall j, rowbit row' j = rowbit row (tr a b j)) -> Q row') -> wp (row_col_swap a b row) Q.
Proof.
  intros C row a b Q HW Ha Hb Hab HQ. unfold row_col_swap.
  pose proof (Nat.div_mod_eq a 64) as Ea. pose proof (Nat.div_mod_eq b 64) as Eb.
  pose proof (Nat.mod_upper_bound a 64 ltac:(lia)) as Ba. pose proof (Nat.mod_upper_bound b 64 ltac:(lia)) as Bb.
  pose proof (wwidth_lt C a Ha) as Wa. pose proof (wwidth_lt C b Hb) as Wb. destruct HW as [HL HW0].
  assert (HW : wfr C row) by (split; assumption).
  set (aw := a / 64) in *. set (bw := b / 64) in *. set (ab := a mod 64) in *. set (bb := b mod 64) in *. clearbody aw bw ab bb.
  cbv zeta. set (mx := Nat.max ab bb). set (mn := ab + bb - mx). set (off := mx - mn).
  assert (D : mx < 64 /\ mn < 64 /\ mx = mn + off /\ off < 64 /\ (mn = ab /\ mx = bb \/ mn = bb /\ mx = ab)) by lia.
  destruct D as (D1 & D2 & D3 & D4 & D5). clearbody mx mn off.
  apply wp_bind, wp_shl; [exact D2|]. intros mask Emask.
  assert (Em : forall t, tb mask t = Nat.eqb t mn).
  { intros t. rewrite Emask. change 1%N with (N.shiftl 1 (N.of_nat 0)). rewrite tb_bit.
    destruct (Nat.leb_spec mn t), (Nat.eqb_spec (t - mn) 0), (Nat.ltb_spec t 64), (Nat.eqb_spec t mn); lia || reflexivity. }
  clear Emask.
  assert (Hfin : forall row', length row' = wwidth C ->
    (forall k t, tb (rw row' k) t = Nat.ltb t 64 && rowbit row (tr a b (64 * k + t))) -> Q row').
  { intros row' L E. destruct (row_of_bits C row row' (tr a b) L HW ltac:(intros; apply tr_lt; assumption) (tr_invol a b) E). apply HQ; assumption. }
  assert (Hsame : forall k t, (k <> aw \/ t <> ab) -> (k <> bw \/ t <> bb) ->
     tb (rw row k) t = Nat.ltb t 64 && rowbit row (tr a b (64 * k + t))).
  { intros k t N1 N2. destruct (Nat.ltb_spec t 64) as [Ht|Ht].
    - cbn [andb]. unfold tr. destruct (Nat.eqb_spec (64 * k + t) a); [lia|]. destruct (Nat.eqb_spec (64 * k + t) b); [lia|].
      rewrite rowbit_rw by exact Ht. reflexivity.
    - cbn [andb]. apply (wfr_tb C); [exact HW|]. intros; lia. }
  assert (Ha' : rowbit row (tr a b (64 * aw + ab)) = tb (rw row bw) bb).
  { unfold tr. rewrite <- Ea, Nat.eqb_refl, Eb. apply rowbit_rw. exact Bb. }
  assert (Hb' : rowbit row (tr a b (64 * bw + bb)) = tb (rw row aw) ab).
  { unfold tr. rewrite <- Eb. destruct (Nat.eqb_spec b a); [lia|]. rewrite Nat.eqb_refl, Ea. apply rowbit_rw. exact Ba. }
  destruct (Nat.eqb_spec aw bw) as [Ew|Ew].
  - subst bw. apply wp_bind, (wp_aget _ _ _ 0%N); [lia|]. fold (rw row aw). apply wp_bind, wp_shr; [exact D4|]. intros s Es.
    apply wp_bind, wp_shl; [exact D4|]. intros t0 Et. apply wp_aset; [lia|]. apply Hfin; [rewrite length_upd; exact HL|].
    intros k t. rewrite rw_upd by lia. destruct (Nat.eqb_spec k aw) as [->|Hk]; [|apply Hsame; lia].
    rewrite tb_lxor, tb_lor, Et, !tb_land, !tb_lxor, !Es, !Em.
    destruct (Nat.eq_dec t ab) as [->|T1]; [|destruct (Nat.eq_dec t bb) as [->|T2]].
    + rewrite Ha'. replace (Nat.ltb ab 64) with true by (symmetry; apply Nat.ltb_lt; lia). cbn [andb].
      destruct D5 as [[U1 U2]|[U1 U2]].
      * replace (Nat.eqb ab mn) with true by (symmetry; apply Nat.eqb_eq; lia).
        assert (Z : Nat.leb off ab && Nat.eqb (ab - off) mn = false) by (destruct (Nat.leb_spec off ab), (Nat.eqb_spec (ab - off) mn); lia || reflexivity).
        rewrite (andb_comm _ (Nat.eqb (ab - off) mn)), (andb_assoc (Nat.leb off ab)), Z, andb_true_r. cbn [andb]. rewrite orb_false_r.
        replace (ab + off) with bb by lia. destruct (tb (rw row aw) ab), (tb (rw row aw) bb); reflexivity.
      * destruct (Nat.eqb_spec ab mn); [lia|]. replace (Nat.eqb (ab - off) mn) with true by (symmetry; apply Nat.eqb_eq; lia).
        destruct (Nat.leb_spec off ab); [|lia]. replace (ab - off) with bb by lia. replace (bb + off) with ab by lia.
        rewrite !andb_false_r, !andb_true_r. cbn [orb andb]. destruct (tb (rw row aw) ab), (tb (rw row aw) bb); reflexivity.
    + rewrite Hb'. replace (Nat.ltb bb 64) with true by (symmetry; apply Nat.ltb_lt; lia). cbn [andb].
      destruct D5 as [[U1 U2]|[U1 U2]].
      * destruct (Nat.eqb_spec bb mn); [lia|]. replace (Nat.eqb (bb - off) mn) with true by (symmetry; apply Nat.eqb_eq; lia).
        destruct (Nat.leb_spec off bb); [|lia]. replace (bb - off) with ab by lia. replace (ab + off) with bb by lia.
        rewrite !andb_false_r, !andb_true_r. cbn [orb andb]. destruct (tb (rw row aw) ab), (tb (rw row aw) bb); reflexivity.
      * replace (Nat.eqb bb mn) with true by (symmetry; apply Nat.eqb_eq; lia).
        assert (Z : Nat.leb off bb && Nat.eqb (bb - off) mn = false) by (destruct (Nat.leb_spec off bb), (Nat.eqb_spec (bb - off) mn); lia || reflexivity).
        rewrite (andb_comm _ (Nat.eqb (bb - off) mn)), (andb_assoc (Nat.leb off bb)), Z, andb_true_r. cbn [andb]. rewrite orb_false_r.
        replace (bb + off) with ab by lia. destruct (tb (rw row aw) ab), (tb (rw row aw) bb); reflexivity.
    + rewrite <- Hsame by lia. destruct (Nat.eqb_spec t mn); [lia|]. rewrite andb_false_r. cbn [orb].
      destruct (Nat.leb_spec off t); cbn [andb]; [|rewrite xorb_false_r; reflexivity].
      destruct (Nat.eqb_spec (t - off) mn); [lia|]. rewrite andb_false_r. cbn [andb]. apply xorb_false_r.
  - set (wm := if Nat.eqb mn ab then aw else bw). set (wx := if Nat.eqb mn ab then bw else aw).
    assert (D6 : wm = aw /\ wx = bw /\ mn = ab /\ mx = bb \/ wm = bw /\ wx = aw /\ mn = bb /\ mx = ab).
    { unfold wm, wx. destruct (Nat.eqb_spec mn ab); lia. }
    clearbody wm wx.
    apply wp_bind, (wp_aget _ _ _ 0%N); [lia|]. apply wp_bind, (wp_aget _ _ _ 0%N); [lia|]. fold (rw row wm). fold (rw row wx).
    apply wp_bind, wp_shr; [exact D4|]. intros s Es. apply wp_bind, wp_aset; [lia|]. apply wp_bind, wp_shl; [exact D4|]. intros t0 Et.
    apply wp_aset; [rewrite length_upd; lia|]. apply Hfin; [rewrite !length_upd; exact HL|].
    intros k t. rewrite !rw_upd by (rewrite ?length_upd; lia).
    assert (Ea2 : rowbit row (tr a b (64 * wm + mn)) = tb (rw row wx) mx) by (destruct D6 as [(-> & -> & -> & ->)|(-> & -> & -> & ->)]; assumption).
    assert (Eb2 : rowbit row (tr a b (64 * wx + mx)) = tb (rw row wm) mn) by (destruct D6 as [(-> & -> & -> & ->)|(-> & -> & -> & ->)]; assumption).
    destruct (Nat.eqb_spec k wx) as [->|Hk].
    + rewrite tb_lxor, Et, tb_land, tb_lxor, Es, Em. destruct (Nat.eq_dec t mx) as [->|T1].
      * rewrite Eb2. destruct (Nat.ltb_spec mx 64); [|lia]. destruct (Nat.leb_spec off mx); [|lia]. replace (mx - off) with mn by lia.
        rewrite Nat.eqb_refl, andb_true_r. replace (mn + off) with mx by lia. cbn [andb]. rewrite andb_true_r.
        destruct (tb (rw row wm) mn), (tb (rw row wx) mx); reflexivity.
      * rewrite <- Hsame by lia. destruct (Nat.leb_spec off t); cbn [andb]; [|apply xorb_false_r].
        destruct (Nat.eqb_spec (t - off) mn); [lia|]. rewrite andb_false_r. apply xorb_false_r.
    + destruct (Nat.eqb_spec k wm) as [->|Hk2]; [|apply Hsame; lia].
      rewrite tb_lxor, tb_land, tb_lxor, Es, Em. destruct (Nat.eqb_spec t mn) as [->|T1].
      * rewrite Ea2. destruct (Nat.ltb_spec mn 64); [|lia]. replace (mn + off) with mx by lia. rewrite andb_true_r. cbn [andb].
        destruct (tb (rw row wm) mn), (tb (rw row wx) mx); reflexivity.
      * rewrite <- Hsame by lia. rewrite andb_false_r. apply xorb_false_r.
Qed.

Lemma col_swap_in_rows_ok : forall R C M a b lo hi (Q : mzd -> Prop), okm R C M -> a < C -> b < C -> hi <= R ->
  (forall M', okm R C M' -> (forall i j, bitat M' i j = if Nat.leb lo i && Nat.ltb i hi then bitat M i (tr a b j) else bitat M i j) -> Q M') ->
  wp (mzd_col_swap_in_rows M a b lo hi) Q.
Proof.
  intros R C M a b lo hi Q HM Ha Hb Hhi HQ. unfold mzd_col_swap_in_rows. destruct (Nat.eqb_spec a b) as [->|Hab].
  { apply wp_ok, HQ; [exact HM|]. intros i j. rewrite tr_same. destruct (Nat.leb lo i && Nat.ltb i hi); reflexivity. }
  destruct (Nat.le_gt_cases hi lo) as [Hle|Hlt].
  { rewrite for_up_none by exact Hle. apply wp_ok, HQ; [exact HM|]. intros i j. destruct (Nat.leb_spec lo i), (Nat.ltb_spec i hi); lia || reflexivity. }
  apply (wp_for_up _ (fun r M' => okm R C M' /\ forall i j, bitat M' i j = if Nat.leb lo i && Nat.ltb i r then bitat M i (tr a b j) else bitat M i j)).
  - lia.
  - split; [exact HM|]. intros i j. destruct (Nat.leb_spec lo i), (Nat.ltb_spec i lo); lia || reflexivity.
  - intros r M' Hlo Hr [HM' E]. apply wp_bind, (wp_aget_row R C); [exact HM'|lia|]. pose proof HM' as (_ & _ & L & W).
    apply wp_bind, (row_col_swap_ok C); auto; [apply W; lia|]. intros row' HW' E'. apply wp_bind, wp_aset; [lia|]. apply wp_ok.
    split; [apply okm_upd; auto; lia|]. intros i j. rewrite (bitat_upd R C) by (auto; lia). destruct (Nat.eqb_spec i r) as [->|Hi].
    + rewrite E'. fold (bitat M' r (tr a b j)). rewrite E. destruct (Nat.leb_spec lo r), (Nat.ltb_spec r r), (Nat.ltb_spec r (S r)); try lia. reflexivity.
    + rewrite E. destruct (Nat.leb_spec lo i), (Nat.ltb_spec i r), (Nat.ltb_spec i (S r)); lia || reflexivity.
  - intros M' [HM' E]. apply HQ; assumption.
Qed.
Lemma col_swap_ok : forall R C M a b (Q : mzd -> Prop), okm R C M -> a < C -> b < C -> 0 < R ->
  (forall M', okm R C M' -> (forall i j, i < R -> bitat M' i j = bitat M i (tr a b j)) -> Q M') -> wp (mzd_col_swap M a b) Q.
Proof.
  intros R C M a b Q HM Ha Hb HR HQ. unfold mzd_col_swap. pose proof HM as (H1 & _). rewrite H1.
  destruct (Nat.eqb_spec a b) as [->|Hab]. { apply wp_ok, HQ; [exact HM|]. intros. rewrite tr_same. reflexivity. }
  destruct (Nat.eqb_spec R 0); [lia|]. apply (col_swap_in_rows_ok R C); auto. intros M' HM' E. apply HQ; [exact HM'|]. intros i j Hi.
  rewrite E. destruct (Nat.ltb_spec i R); [reflexivity|lia].
Qed.
