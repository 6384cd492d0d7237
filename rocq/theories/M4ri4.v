(** Adding combinations of rows by table: mzd_process_rows and mzd_process_rows2 to 6. *)
From Coq Require Import Arith NArith ZArith List Bool Lia ZifyNat.
From Verif Require Import Base Spec LinAlg ModelM4ri SpecM4ri M4ri1 M4ri2 M4ri3.
Import ListNotations.
#[local] Ltac Zify.zify_post_hook ::= Z.to_euclidean_division_equations.

Definition fxor (l : list bool) : bool := fold_right xorb false l.

Lemma fxor_false : forall l, (forall b, In b l -> b = false) -> fxor l = false.
Proof. induction l as [|a l IH]; intros H; auto. simpl. rewrite (H a), IH; simpl; auto. intros; apply H; simpl; auto. Qed.

(** ** combine *)

Lemma wp_xfold : forall i ts x (Q : N -> Prop), (forall t, In t ts -> i < length t) ->
  (forall y, (forall b, tb y b = xorb (tb x b) (fxor (map (fun t => tb (rw t i) b) ts))) -> Q y) ->
  wp (fold_left (fun acc t => a <- acc ;; y <- aget t i ;; Ok (N.lxor a y)) ts (Ok x)) Q.
Proof.
  intros i ts. induction ts as [|t ts IH]; intros x Q HL HQ; simpl.
  - apply HQ. intros b. simpl. rewrite xorb_false_r. reflexivity.
  - assert (E : aget t i = Ok (rw t i)).
    { destruct (wp_exists _ _ _ (wp_aget _ t i 0%N (fun y => y = rw t i) (HL t ltac:(simpl; auto)) eq_refl)) as (y & E & ->). exact E. }
    rewrite E. simpl. apply IH; [intros; apply HL; simpl; auto|].
    intros y Hy. apply HQ. intros b. rewrite Hy, tb_lxor. simpl. apply xorb_assoc.
Qed.

Lemma wp_combine : forall C lo ts m (Q : list N -> Prop), wfr C m -> (forall t, In t ts -> wfr C t) ->
  (forall m', wfr C m' -> (forall j, rowbit m' j =
      if Nat.leb lo (j / 64) then xorb (rowbit m j) (fxor (map (fun t => rowbit t j) ts)) else rowbit m j) -> Q m') ->
  wp (combine lo (wwidth C) ts m) Q.
Proof.
  intros C lo ts m Q Wm Wt HQ. unfold combine.
  set (h := fun i x => match fold_left (fun acc t => a <- acc ;; y <- aget t i ;; Ok (N.lxor a y)) ts (Ok x) with Ok y => y | UB => 0%N end).
  assert (Hh : forall i x, i < wwidth C ->
     wp (fold_left (fun acc t => a <- acc ;; y <- aget t i ;; Ok (N.lxor a y)) ts (Ok x)) (fun y => y = h i x /\
       forall b, tb y b = xorb (tb x b) (fxor (map (fun t => tb (rw t i) b) ts)))).
  { intros i x Hi. unfold h. apply wp_conj.
    - destruct (wp_exists _ _ _ (wp_xfold i ts x (fun _ => True) ltac:(intros t Ht; rewrite (proj1 (Wt t Ht)); exact Hi) (fun _ _ => I))) as (y & E & _).
      rewrite E. reflexivity.
    - apply wp_xfold; auto. intros t Ht. rewrite (proj1 (Wt t Ht)). exact Hi. }
  apply (wp_row_loop _ _ _ h); [rewrite (proj1 Wm); auto| |].
  { intros i _ Hi. apply (wp_mono _ _ _ _ (Hh i _ Hi)). intros y [E _]. exact E. }
  intros m' L E.
  assert (Eh : forall i x b, i < wwidth C -> tb (h i x) b = xorb (tb x b) (fxor (map (fun t => tb (rw t i) b) ts))).
  { intros i x b Hi. destruct (wp_exists _ _ _ (Hh i x Hi)) as (y & _ & <- & Hy). apply Hy. }
  apply HQ.
  - split; [rewrite L; apply Wm|]. intros k b. rewrite E.
    destruct (Nat.leb_spec lo k), (Nat.ltb_spec k (wwidth C)); cbn [andb]; try apply Wm.
    rewrite Eh by auto. destruct (tb (rw m k) b) eqn:Em; [intros _; apply Wm; exact Em|]. cbn [xorb].
    intros Hx. destruct (Nat.lt_ge_cases b 64) as [Hb|Hb], (Nat.lt_ge_cases (64 * k + b) C) as [Hc|Hc]; auto; exfalso;
      rewrite fxor_false in Hx; try discriminate; intros y Hy; apply in_map_iff in Hy as (t & <- & Ht);
      apply (wfr_tb C); auto; lia.
  - intros j. rewrite !rowbit_tb, E. destruct (Nat.leb_spec lo (j / 64)); cbn [andb]; auto.
    destruct (Nat.ltb_spec (j / 64) (wwidth C)) as [Hj|Hj].
    + rewrite Eh by auto. f_equal.
    + rewrite fxor_false; [rewrite xorb_false_r; reflexivity|]. intros y Hy. apply in_map_iff in Hy as (t & <- & Ht).
      apply (wfr_tb C); auto. unfold wwidth in *. lia.
Qed.

(** ** Table look-up *)

Lemma tblspec_id : forall C K g c k TL id, tblok C K TL -> tblspec g c k TL -> k <= K -> id < 2 ^ k ->
  exists x, nth id (snd TL) 0 = x /\ x < 2 ^ k /\ x < length (fst TL) /\ id < length (snd TL) /\ wfr C (nth x (fst TL) []) /\
    forall j, 64 * (c / 64) <= j -> rowbit (nth x (fst TL) []) j =
      Nat.leb c j && xsum k (fun l => tb (N.of_nat id) l && g l j).
Proof.
  intros C K g c k TL id (HT & HL & HW & H0) HS HkK Hid.
  assert (HP : 2 ^ k <= 2 ^ K) by (apply Nat.pow_le_mono_r; lia).
  destruct (gord_surj k id Hid) as (x & Hx & <-). destruct (HS x Hx) as [S1 S2]. exists x.
  refine (conj S1 (conj Hx (conj _ (conj _ (conj _ S2))))); [lia|lia|apply HW; lia].
Qed.

Fixpoint tabspec (C K c : nat) (g : fmat) (ks : list nat) (ts : list (list (list N) * list nat)) : Prop :=
  match ks, ts with
  | [], [] => True
  | k :: ks', TL :: ts' => 1 <= k /\ k <= K /\ tblok C K TL /\ tblspec g c k TL /\
      tabspec C K c (fun l => g (k + l)) ks' ts'
  | _, _ => False
  end.

Lemma wp_table_rows : forall C K c ks ts g bits (Q : list (nat * list N) -> Prop), K <= 63 -> tabspec C K c g ks ts ->
  (forall xs, (forall x, In x xs -> wfr C (snd x) /\ (fst x = 0 -> forall j, rowbit (snd x) j = false)) ->
     (forall j, 64 * (c / 64) <= j -> fxor (map (fun x => rowbit (snd x) j) xs) =
        Nat.leb c j && xsum (list_sum ks) (fun l => tb bits l && g l j)) -> Q xs) ->
  wp (table_rows bits ks ts) Q.
Proof.
  intros C K c ks. induction ks as [|k ks IH]; intros [|[T L] ts] g bits Q HK HS HQ; simpl in HS; try contradiction.
  - simpl. apply HQ; [intros x []|]. intros j Hj. simpl. rewrite andb_false_r. reflexivity.
  - destruct HS as (Hk1 & Hk2 & HO & HS & HR). simpl table_rows.
    set (w := N.land bits (left_bitmask k)).
    assert (Hw : forall b, tb w b = Nat.ltb b k && tb bits b).
    { intros b. unfold w. rewrite tb_land, tb_left by lia. destruct (Nat.eqb_spec (k mod 64) 0); [lia|]. apply andb_comm. }
    assert (Hid : N.to_nat w < 2 ^ k).
    { assert (P : N.of_nat (2 ^ k) = (2 ^ N.of_nat k)%N) by (rewrite Nat2N.inj_pow; reflexivity).
      enough (w < 2 ^ N.of_nat k)%N by lia. apply tb_lt. intros b Hb. rewrite Hw. destruct (Nat.ltb_spec b k); [lia|reflexivity]. }
    destruct (tblspec_id C K g c k (T, L) _ HO HS Hk2 Hid) as (x & E1 & E2 & E3 & E4 & E5 & E6). simpl in E1, E3, E4, E5, E6.
    apply wp_bind, (wp_aget _ _ _ 0); [exact E4|]. rewrite E1. apply wp_bind, (wp_aget _ _ _ []); [exact E3|].
    apply wp_bind. apply wp_shr; [lia|]. intros bits' Hbits. apply wp_bind. apply (IH ts (fun l => g (k + l))); auto.
    intros xs HX HJ. apply wp_ok, HQ.
    + intros y [<-|Hy]; [|apply HX; exact Hy]. simpl. split; auto. intros -> j. apply HO.
    + intros j Hj. simpl map. unfold fxor. simpl fold_right. fold (fxor (map (fun x => rowbit (snd x) j) xs)).
      rewrite HJ, E6 by auto. simpl list_sum. rewrite xsum_add. destruct (Nat.leb c j); auto. cbn [andb]. f_equal.
      * apply xsum_ext. intros l Hl. rewrite N2Nat.id, Hw. destruct (Nat.ltb_spec l k); [reflexivity|lia].
      * apply xsum_ext. intros l Hl. rewrite Hbits. f_equal. f_equal. lia.
Qed.

(** ** The rows *)

(** Row a of B' is row a of B plus the combination of the rows of g chosen by its columns c to
    c + k - 1, for the rows a in [lo, hi) *)
Definition added (lo hi c k : nat) (g B B' : fmat) : Prop :=
  forall a j, B' a j =
    if Nat.leb lo a && Nat.ltb a hi && Nat.leb c j
    then xorb (B a j) (xsum k (fun l => B a (c + l) && g l j)) else B a j.

Lemma added_none : forall lo hi c k g B, hi <= lo -> added lo hi c k g B B.
Proof.
  intros lo hi c k g B H a j. destruct (Nat.leb_spec lo a), (Nat.ltb_spec a hi); try lia; reflexivity.
Qed.
Lemma added_step : forall lo hi c k g B B1 B2, added lo hi c k g B B1 -> lo <= hi ->
  added hi (S hi) c k g B1 B2 -> added lo (S hi) c k g B B2.
Proof.
  intros lo hi c k g B B1 B2 H1 Hl H2 a j. rewrite H2, H1.
  destruct (Nat.leb_spec hi a), (Nat.ltb_spec a (S hi)), (Nat.leb_spec lo a), (Nat.ltb_spec a hi); try lia; cbn [andb]; auto.
  assert (a = hi) by lia. subst a. destruct (Nat.leb c j); auto. f_equal. apply xsum_ext. intros l Hl'. rewrite H1.
  destruct (Nat.ltb_spec hi hi); [lia|]. rewrite andb_false_r. reflexivity.
Qed.

(** Writing row a, changed by combine *)
Lemma wp_put_row : forall R C M a c k g ts (Q : mzd -> Prop), okm R C M -> a < R ->
  (forall t, In t ts -> wfr C t) ->
  (forall j, 64 * (c / 64) <= j -> fxor (map (fun t => rowbit t j) ts) =
     Nat.leb c j && xsum k (fun l => bitat M a (c + l) && g l j)) ->
  (forall M', okm R C M' -> added a (S a) c k g (bitat M) (bitat M') -> Q M') ->
  wp (m <- aget (mrows M) a ;; m <- combine (c / 64) (mwidth M) ts m ;;
      rs <- aset (mrows M) a m ;; Ok (with_rows M rs)) Q.
Proof.
  intros R C M a c k g ts Q HM Ha HW HJ HQ. rewrite (okm_width R C M HM).
  apply wp_bind, (wp_aget_row R C); auto. apply wp_bind. apply (wp_combine C); auto.
  { apply HM. exact Ha. }
  intros m Wm Em. apply wp_bind, wp_aset; [rewrite (proj1 (proj2 (proj2 HM))); exact Ha|]. apply wp_ok, HQ.
  - apply okm_upd; auto.
  - intros x j. rewrite (bitat_upd R C) by auto. destruct (Nat.eqb_spec x a) as [->|Hne].
    + destruct (Nat.leb_spec a a); [|lia]. destruct (Nat.ltb_spec a (S a)); [|lia]. cbn [andb].
      rewrite Em. destruct (Nat.leb_spec (c / 64) (j / 64)).
      * rewrite HJ by lia. destruct (Nat.leb c j); cbn [andb]; auto. apply xorb_false_r.
      * destruct (Nat.leb_spec c j); [lia|]. reflexivity.
    + destruct (Nat.leb_spec a x), (Nat.ltb_spec x (S a)); try lia; reflexivity.
Qed.

Lemma wp_process_row_1 : forall R C K M a c k g T L (Q : mzd -> Prop), okm R C M -> a < R ->
  1 <= k -> k <= 64 -> k <= K -> c + k <= C -> tblok C K (T, L) -> tblspec g c k (T, L) ->
  (forall M', okm R C M' -> added a (S a) c k g (bitat M) (bitat M') -> Q M') ->
  wp (process_row_1 M a c k T L) Q.
Proof.
  intros R C K M a c k g T L Q HM Ha Hk1 Hk2 HkK Hc HO HS HQ. unfold process_row_1.
  apply wp_bind. apply (wp_read_bits R C); auto. intros v Hv.
  assert (Hid : N.to_nat v < 2 ^ k).
  { assert (P : N.of_nat (2 ^ k) = (2 ^ N.of_nat k)%N) by (rewrite Nat2N.inj_pow; reflexivity).
    enough (v < 2 ^ N.of_nat k)%N by lia. apply tb_lt. intros b Hb. rewrite Hv. destruct (Nat.ltb_spec b k); [lia|reflexivity]. }
  destruct (tblspec_id C K g c k (T, L) _ HO HS HkK Hid) as (x & E1 & E2 & E3 & E4 & E5 & E6). simpl in E1, E3, E4, E5, E6.
  apply wp_bind, (wp_aget _ _ _ 0); [exact E4|]. rewrite E1.
  apply wp_bind, (wp_aget_row R C); auto. apply wp_bind, (wp_aget _ _ _ []); [exact E3|].
  assert (W := wp_put_row R C M a c k g [nth x T []] Q HM Ha).
  assert (W' : wp (m <- combine (c / 64) (mwidth M) [nth x T []] (nth a (mrows M) []) ;; rs <- aset (mrows M) a m ;; Ok (with_rows M rs)) Q).
  2: exact W'.
  assert (E : aget (mrows M) a = Ok (nth a (mrows M) [])).
  { destruct (wp_exists _ _ _ (wp_aget_row R C M a (fun y => y = nth a (mrows M) []) HM Ha eq_refl)) as (y & E & ->). exact E. }
  rewrite E in W. apply W; auto.
  - intros t [<-|[]]. exact E5.
  - intros j Hj. unfold fxor. simpl. rewrite xorb_false_r, E6 by exact Hj. f_equal. apply xsum_ext. intros l Hl.
    rewrite N2Nat.id, Hv. destruct (Nat.ltb_spec l k); [reflexivity|lia].
Qed.

Lemma wp_added_loop : forall R C M lo hi c k g body (Q : mzd -> Prop), okm R C M -> lo <= hi -> hi <= R ->
  (forall a M1 (Q1 : mzd -> Prop), lo <= a -> a < hi -> okm R C M1 ->
     (forall M', okm R C M' -> added a (S a) c k g (bitat M1) (bitat M') -> Q1 M') -> wp (body a M1) Q1) ->
  (forall M', okm R C M' -> added lo hi c k g (bitat M) (bitat M') -> Q M') ->
  wp (for_up lo hi body M) Q.
Proof.
  intros R C M lo hi c k g body Q HM Hl Hh HB HQ.
  apply (wp_for_up _ (fun t M1 => okm R C M1 /\ added lo t c k g (bitat M) (bitat M1))); auto.
  - split; auto. apply added_none. lia.
  - intros a M1 Ha1 Ha2 [H1 H2]. apply HB; auto. intros M' H3 H4. split; auto. eapply added_step; eauto.
  - intros M1 [H1 H2]. apply HQ; auto.
Qed.

Lemma added_trans : forall lo mid hi c k g B B1 B2, lo <= mid -> mid <= hi -> added lo mid c k g B B1 ->
  added mid hi c k g B1 B2 -> added lo hi c k g B B2.
Proof.
  intros lo mid hi c k g B B1 B2 Hl Hh H1 H2 a j. rewrite H2, H1.
  destruct (Nat.leb_spec mid a), (Nat.ltb_spec a hi), (Nat.leb_spec lo a), (Nat.ltb_spec a mid); try lia; cbn [andb]; auto.
  destruct (Nat.leb c j); auto. f_equal. apply xsum_ext. intros l Hl'. rewrite H1.
  destruct (Nat.ltb_spec a mid); [lia|]. rewrite andb_false_r. reflexivity.
Qed.

Lemma wp_process_rows : forall R C K M lo hi c k g ts (Q : mzd -> Prop), okm R C M -> lo <= hi -> hi <= R ->
  1 <= k -> k <= 64 -> c + k <= C -> K <= 63 -> list_sum (splits (length ts) k) = k ->
  tabspec C K c g (splits (length ts) k) ts ->
  (forall M', okm R C M' -> added lo hi c k g (bitat M) (bitat M') -> Q M') ->
  wp (process_rows M lo hi c k ts) Q.
Proof.
  intros R C K M lo hi c k g ts Q HM Hl Hh Hk1 Hk2 Hc HK Hsum HS HQ.
  assert (HN : wp (process_rows_n M lo hi c k ts) Q).
  { unfold process_rows_n. apply (wp_added_loop R C M lo hi c k g); auto.
    intros a M1 Q1 Ha1 Ha2 HM1 HQ1. apply wp_bind. apply (wp_read_bits R C); auto; [lia|]. intros v Hv.
    apply wp_bind. apply (wp_table_rows C K c _ _ g); auto. intros xs HX HJ.
    assert (HJ' : forall j, 64 * (c / 64) <= j -> fxor (map (fun t => rowbit t j) (map snd xs)) =
               Nat.leb c j && xsum k (fun l => bitat M1 a (c + l) && g l j)).
    { intros j Hj. rewrite map_map, HJ, Hsum by auto. f_equal. apply xsum_ext. intros l Hl'. rewrite Hv.
      destruct (Nat.ltb_spec l k); [reflexivity|lia]. }
    destruct (forallb (fun xt => Nat.eqb (fst xt) 0) xs) eqn:EF.
    - apply wp_ok, HQ1; auto. intros x j. destruct (Nat.leb_spec a x), (Nat.ltb_spec x (S a)); cbn [andb]; auto.
      assert (x = a) by lia. subst x. destruct (Nat.leb_spec c j); auto. assert (Hj : 64 * (c / 64) <= j) by lia.
      specialize (HJ' j Hj). destruct (Nat.leb_spec c j); [|lia]. cbn [andb] in HJ'. rewrite <- HJ'.
      rewrite fxor_false; [rewrite xorb_false_r; reflexivity|]. intros b Hb. rewrite map_map in Hb.
      apply in_map_iff in Hb as (y & <- & Hy). apply HX; auto. rewrite forallb_forall in EF. apply Nat.eqb_eq, EF. exact Hy.
    - apply (wp_put_row R C M1 a c k g); auto; [lia|]. intros t Ht. apply in_map_iff in Ht as (y & <- & Hy). apply HX. exact Hy. }
  destruct ts as [|[T L] [|TL2 ts]]; auto.
  clear HN Hsum. simpl in HS. destruct HS as (_ & HkK & HO & HS & _). unfold process_rows, mzd_process_rows.
  assert (H1 : forall M lo (Q : mzd -> Prop), okm R C M -> lo <= hi ->
     (forall M', okm R C M' -> added lo hi c k g (bitat M) (bitat M') -> Q M') ->
     wp (for_up lo hi (fun r M => process_row_1 M r c k T L) M) Q).
  { clear M lo HM Hl Q HQ. intros M lo Q HM Hl HQ. apply (wp_added_loop R C M lo hi c k g); auto.
    intros a M1 Q1 Ha1 Ha2 HM1 HQ1. apply (wp_process_row_1 R C K M1 a c k g); auto; lia. }
  destruct (Nat.eqb_spec k 1) as [->|]; [|apply H1; auto].
  apply wp_bind. apply wp_shl; [lia|]. intros bm Hbm.
  set (mid := lo + 2 * ((hi - lo) / 2)). assert (Hm1 : lo <= mid) by lia. assert (Hm2 : mid <= hi) by lia.
  apply wp_bind. apply (wp_added_loop R C M lo mid c 1 g); auto; [lia| |].
  - intros a M1 Q1 Ha1 Ha2 HM1 HQ1. assert (Hck := wwidth_lt C c ltac:(lia)).
    apply wp_bind. apply (wp_wget R C); auto; [lia|].
    assert (Hbit : N.land (rw (nth a (mrows M1) []) (c / 64)) bm = 0%N <-> bitat M1 a c = false).
    { unfold bitat. rewrite rowbit_tb. split.
      - intros E. assert (E' : tb (N.land (rw (nth a (mrows M1) []) (c / 64)) bm) (c mod 64) = false) by (rewrite E; apply tb_0).
        rewrite tb_land, Hbm in E'. destruct (Nat.leb_spec (c mod 64) (c mod 64)); [|lia].
        destruct (Nat.ltb_spec (c mod 64) 64); [|lia]. rewrite Nat.sub_diag in E'. change (tb 1 0) with true in E'.
        cbn [andb] in E'. rewrite andb_true_r in E'. exact E'.
      - intros E. apply tb_inj. intros b. rewrite tb_0, tb_land, Hbm. destruct (Nat.eq_dec b (c mod 64)) as [->|]; [rewrite E; reflexivity|].
        destruct (Nat.leb_spec (c mod 64) b); [|apply andb_false_r]. replace (tb 1 (b - c mod 64)) with false; [cbn [andb]; apply andb_false_r|].
        symmetry. change 1%N with (N.shiftl 1 (N.of_nat 0)). rewrite tb_bit. apply Nat.eqb_neq. lia. }
    destruct (N.eqb_spec (N.land (rw (nth a (mrows M1) []) (c / 64)) bm) 0) as [E|E].
    + apply wp_ok, HQ1; auto. apply Hbit in E. intros x j.
      destruct (Nat.leb_spec a x), (Nat.ltb_spec x (S a)); cbn [andb]; auto. assert (x = a) by lia. subst x.
      cbn [xsum]. rewrite Nat.add_0_r, E. cbn [andb xorb]. rewrite xorb_false_r. destruct (Nat.leb c j); reflexivity.
    + assert (Hb : bitat M1 a c = true) by (destruct (bitat M1 a c) eqn:E'; auto; exfalso; apply E, Hbit; reflexivity).
      destruct HO as (HT & HL & HW & H0). simpl in HT, HL, HW, H0.
      assert (HP : 2 <= 2 ^ K) by (change 2 with (2 ^ 1) at 1; apply Nat.pow_le_mono_r; lia).
      destruct (HS 1 ltac:(simpl; lia)) as [_ S2]. cbn [fst snd] in S2.
      assert (W := wp_put_row R C M1 a c 1 g [nth 1 T []] Q1 HM1 ltac:(lia)).
      assert (Ea : aget (mrows M1) a = Ok (nth a (mrows M1) [])).
      { destruct (wp_exists _ _ _ (wp_aget_row R C M1 a (fun y => y = nth a (mrows M1) []) HM1 ltac:(lia) eq_refl)) as (y & Ey & ->). exact Ey. }
      rewrite Ea in W. rewrite Ea. apply wp_bind, wp_ok. apply wp_bind, (wp_aget _ _ _ []); [lia|]. apply W; auto.
      * intros t [<-|[]]. apply HW. lia.
      * intros j Hj. unfold fxor. cbn [map fold_right]. rewrite xorb_false_r, S2 by exact Hj. cbn [xsum]. rewrite Nat.add_0_r, Hb.
        change (gord 1 1) with 1. change (tb (N.of_nat 1) 0) with true. reflexivity.
  - intros M1 HM1 HA1. apply H1; auto. intros M' HM' HA'. apply HQ; auto. eapply added_trans; eauto.
Qed.
