(** Proofs about the layout of matrices and windows *)
From Coq Require Import Arith ZArith NArith List Bool Lia Permutation.
From Verif Require Import Base ModelMem SpecMem SpecMemRun Mem1 Mem2 Mem3.
Import ListNotations.
Open Scope Z_scope.

Lemma wp_cint : forall z (Q : Z -> Prop), - 2 ^ 31 <= z < 2 ^ 31 -> Q z -> wp (cint z) Q.
Proof.
  intros z Q H HQ. unfold cint. replace ((- 2 ^ 31 <=? z) && (z <? 2 ^ 31))%bool with true; [apply wp_ok; auto|].
  symmetry. apply andb_true_iff. rewrite Z.leb_le, Z.ltb_lt. auto.
Qed.
Lemma cint_ub : forall z, 2 ^ 31 <= z -> cint z = UB.
Proof.
  intros z H. unfold cint. replace (z <? 2 ^ 31) with false by (symmetry; apply Z.ltb_ge; auto). rewrite andb_false_r. reflexivity.
Qed.
Lemma halvings_le : forall fuel b log, 0 <= b -> 2 ^ Z.of_nat (halvings fuel b log) <= 2 ^ Z.of_nat log * Z.max 1 b.
Proof.
  induction fuel as [|fuel IH]; intros b log Hb; cbn [halvings].
  - assert (0 < 2 ^ Z.of_nat log) by (apply Z.pow_pos_nonneg; lia). nia.
  - assert (P : 0 < 2 ^ Z.of_nat log) by (apply Z.pow_pos_nonneg; lia). destruct (Z.eqb_spec (b / 2) 0) as [E|NE]; [nia|].
    assert (0 <= b / 2) by (apply Z.div_pos; lia). specialize (IH (b / 2) (S log) ltac:(auto)).
    rewrite Nat2Z.inj_succ, Z.pow_succ_r in IH by lia. pose proof (Z.mul_div_le b 2 ltac:(lia)). nia.
Qed.

(** the layout: wo is the offset of the first column in words *)
Definition lay (M : mhdr) (wo : Z) : Prop :=
  let br := 2 ^ Z.of_nat (m_blog M) in
  let rs := m_rowstride M in
  let ro := m_rowoff M in
  (0 < m_blocks M /\ 0 <= m_nrows M /\ length (m_rowsv M) = Z.to_nat (m_nrows M) /\ ro + m_nrows M + 1 < 2 ^ 31 /\
   0 <= m_ncols M /\ m_ncols M + 63 < 2 ^ 31 /\ m_width M = (m_ncols M + 63) / 64) /\
  (0 <= ro < br /\ 0 < rs /\ br * rs <= 2 ^ 27 /\ m_offset M = wo + ro * rs /\ 0 <= wo /\ wo + m_width M <= rs) /\
  (forall i, 0 <= i < m_nrows M -> exists b, nth_error (m_blocksv M) (Z.to_nat ((ro + i) / br)) = Some b /\
     nth (Z.to_nat i) (m_rowsv M) 0 = kbegin b + 8 * (((ro + i) mod br) * rs + wo) /\
     8 * (((ro + i) mod br + 1) * rs) <= ksize b) /\
  (N.land (m_flags M) fl_multiple = if 0 <? (ro + m_nrows M - 1) / br then fl_multiple else 0%N) /\
  (forall n, 0 <= n < (ro + m_nrows M - 1) / br -> exists b, nth_error (m_blocksv M) (Z.to_nat n) = Some b /\ ksize b = 8 * (br * rs)).

(** ** mzd_init *)
Lemma alloc_blocks_wp : forall static al thr s0 hs full n bw acc bl g (Q : list mblk * gst -> Prop), alloc_ok static al -> 0 < bw -> 0 < full ->
  ginv static s0 hs bl g ->
  (forall new g', length new = n -> ginv static s0 hs (map breg new ++ bl) g' -> Forall (fun b => 0 < ksize b) new ->
     (forall k b, nth_error new k = Some b -> ksize b = 8 * (if (S k =? n)%nat then bw else full)) -> Q (new ++ acc, g')) ->
  wp (alloc_blocks al thr n bw full acc g) Q.
Proof.
  intros static al thr s0 hs full n. induction n as [|n IH]; intros bw acc bl g Q HA Hb Hf HI HQ; cbn [alloc_blocks].
  - apply wp_ok. apply (HQ []); auto. intros [|k] b E; discriminate E.
  - apply wp_bind. unfold mmc_calloc. apply on_mm_malloc_wp with (static := static) (s0 := s0) (hs := hs) (bl := bl); auto; [unfold WSIZE; lia|].
    intros p g' Hp HI'. apply IH with (bl := (p, 1 * (bw * WSIZE)) :: bl); auto.
    intros new g2 L HI2 HF HK. replace (new ++ mkmblk (bw * WSIZE) p :: acc) with ((new ++ [mkmblk (bw * WSIZE) p]) ++ acc) by (rewrite <- app_assoc; reflexivity).
    apply HQ.
    + rewrite app_length. cbn. lia.
    + rewrite map_app, <- app_assoc. cbn [map breg kbegin ksize app]. replace (1 * (bw * WSIZE)) with (bw * WSIZE) in HI2 by ring. exact HI2.
    + apply Forall_app. split; auto. constructor; [cbn [ksize]; unfold WSIZE; lia|constructor].
    + intros k b E. destruct (Nat.ltb_spec k n) as [Hk|Hk].
      * rewrite nth_error_app1 in E by lia. rewrite (HK _ _ E). destruct (Nat.eqb_spec (S k) n), (Nat.eqb_spec (S k) (S n)); auto; lia.
      * assert (k = n). { assert (k < length (new ++ [mkmblk (bw * WSIZE) p]))%nat by (apply nth_error_Some; congruence). rewrite app_length in *. cbn in *. lia. }
        subst k. rewrite nth_error_app2 in E by lia. rewrite L, Nat.sub_diag in E. injection E as <-. cbn [ksize]. rewrite Nat.eqb_refl. unfold WSIZE. ring.
Qed.

Definition init_ok (r c : Z) : Prop := 0 <= r /\ r + 2 ^ 27 < 2 ^ 31 /\ 0 <= c /\ c + 63 < 2 ^ 31.

Lemma mzd_init_wp : forall static al thr s0 hs bl r c g (Q : mhdr * gst -> Prop), In (s0, CSIZE) static -> alloc_ok static al -> init_ok r c ->
  ginv static s0 hs bl g ->
  (forall M g', ginv static s0 (m_addr M :: hs) (owned M ++ bl) g' -> fok M -> m_nrows M = r -> m_ncols M = c ->
     (0 < r -> 0 < c -> lay M 0 /\ m_rowoff M = 0 /\ owns_blocks M = true) -> (r = 0 \/ c = 0 -> m_blocks M = 0) -> Q (M, g')) ->
  wp (mzd_init al thr s0 r c g) Q.
Proof.
  intros static al thr s0 hs bl r c g Q Hs HA (R0 & R1 & C0 & C1) HI HQ. unfold mzd_init. apply wp_bind.
  apply on_h_malloc_wp with (static := static) (hs := hs) (bl := bl); auto. intros a g1 HI1.
  apply wp_bind. apply wp_cint; [lia|]. set (width := (c + 63) / 64).
  assert (W0 : 0 <= width) by (apply Z.div_pos; lia).
  assert (W1 : width <= 2 ^ 25) by (apply Z.div_le_upper_bound; lia).
  set (rs := if ((width <? 1) || (width mod 2 =? 0))%bool then width else width + 1).
  assert (RS : width <= rs <= width + 1) by (unfold rs; destruct ((width <? 1) || (width mod 2 =? 0))%bool; lia). clearbody rs.
  apply wp_bind. apply wp_cint; [lia|]. apply wp_bind. unfold mmc_calloc.
  apply on_mm_malloc_wp with (static := static) (s0 := s0) (hs := a :: hs) (bl := bl); auto; [unfold WSIZE; lia|].
  intros rows g2 Hrows HI2.
  set (flags := if c mod 64 =? 0 then 0%N else fl_nonzero_excess).
  destruct ((r =? 0) || (c =? 0))%bool eqn:EZ.
  - apply orb_true_iff in EZ. rewrite !Z.eqb_eq in EZ. apply wp_ok. apply HQ; auto; cbn [m_addr m_nrows m_ncols].
    + unfold owned. cbn [m_rows m_nrows]. destruct (Z.eqb_spec rows 0); [lia|]. unfold owns_blocks. cbn [m_blocks Z.eqb negb andb app].
      replace (8 * (r + 1)) with ((r + 1) * WSIZE) by (unfold WSIZE; ring). exact HI2.
    + split; [exact R0|]. unfold owns_blocks. cbn [m_blocks Z.eqb negb andb]. discriminate.
    + intros; lia.
  - apply orb_false_iff in EZ. rewrite !Z.eqb_neq in EZ. destruct EZ as [NR NC].
    assert (W2 : 1 <= width) by (apply Z.div_le_lower_bound; lia).
    set (log := halvings 28 (MAXBLOCK / rs) 0). set (br := 2 ^ Z.of_nat log).
    assert (Bpos : 0 < br) by (apply Z.pow_pos_nonneg; lia).
    assert (BR : br * rs <= 2 ^ 27).
    { pose proof (halvings_le 28 (MAXBLOCK / rs) 0 ltac:(apply Z.div_pos; unfold MAXBLOCK; lia)) as HL. fold log br in HL. change (2 ^ Z.of_nat 0) with 1 in HL.
      assert (1 <= MAXBLOCK / rs) by (apply Z.div_le_lower_bound; unfold MAXBLOCK; lia).
      pose proof (Z.mul_div_le MAXBLOCK rs ltac:(lia)) as HD. unfold MAXBLOCK in HD at 2. nia. }
    assert (B27 : br <= 2 ^ 27) by nia.
    apply wp_bind. apply wp_cint; [lia|]. apply wp_bind. apply wp_cint; [lia|].
    set (nb := (r + br - 1) / br).
    assert (NBE : nb = (r - 1) / br + 1). { unfold nb. replace (r + br - 1) with ((r - 1) + 1 * br) by ring. apply Z.div_add. lia. }
    assert (Q0 : 0 <= (r - 1) / br) by (apply Z.div_pos; lia).
    assert (LB : (nb - 1) * br <= r - 1) by (rewrite NBE; pose proof (Z.mul_div_le (r - 1) br ltac:(lia)); nia).
    assert (UBD : r - 1 < nb * br) by (rewrite NBE; pose proof (Z.mul_succ_div_gt (r - 1) br ltac:(lia)); nia).
    apply wp_bind. unfold mmc_calloc. apply on_mm_malloc_wp with (static := static) (s0 := s0) (hs := a :: hs) (bl := (rows, (r + 1) * WSIZE) :: bl); auto; [unfold BSIZE; lia|].
    intros blocks g3 Hblocks HI3. apply wp_bind. apply wp_cint; [nia|]. apply wp_bind. apply wp_cint; [nia|]. apply wp_bind.
    set (lastw := (r - (nb - 1) * br) * rs). set (full := br * rs).
    apply alloc_blocks_wp with (static := static) (s0 := s0) (hs := a :: hs) (bl := (blocks, (nb + 1) * BSIZE) :: (rows, (r + 1) * WSIZE) :: bl); auto;
      [unfold lastw; nia|unfold full; nia|].
    intros bv g4 LV HI4 HF HK. rewrite app_nil_r. apply wp_bind. set (fl := if 1 <? nb then N.lor flags fl_multiple else flags).
    assert (BLK : forall i, 0 <= i < r -> exists b, nth_error bv (Z.to_nat (i / br)) = Some b /\ 8 * ((i mod br + 1) * rs) <= ksize b).
    { intros i Hi. assert (D0 : 0 <= i / br) by (apply Z.div_pos; lia).
      assert (D1 : i / br < nb) by (apply Z.div_lt_upper_bound; nia).
      destruct (nth_error bv (Z.to_nat (i / br))) as [b|] eqn:E; [|apply nth_error_None in E; lia].
      exists b. split; auto. rewrite (HK _ _ E). pose proof (Z.mod_pos_bound i br ltac:(lia)) as MB. pose proof (Z.div_mod i br ltac:(lia)) as DM.
      destruct (Nat.eqb_spec (S (Z.to_nat (i / br))) (Z.to_nat nb)) as [EN|EN].
      - assert (i / br = nb - 1) by lia. unfold lastw. apply Z.mul_le_mono_nonneg_l; [lia|]. apply Z.mul_le_mono_nonneg_r; [lia|]. nia.
      - unfold full. apply Z.mul_le_mono_nonneg_l; [lia|]. apply Z.mul_le_mono_nonneg_r; lia. }
    apply wp_for_up with (I := fun i rv => length rv = i /\ forall j, (j < i)%nat -> exists b, nth_error bv (Z.to_nat (Z.of_nat j / br)) = Some b /\
        nth j rv 0 = kbegin b + 8 * ((Z.of_nat j mod br) * rs)); [lia| | |].
    + split; [reflexivity|]. intros; lia.
    + intros i rv _ Hi (L & HR). destruct (BLK (Z.of_nat i) ltac:(lia)) as (b & E & _). apply wp_bind.
      assert (Hl : (Z.to_nat (Z.of_nat i / br) < length bv)%nat) by (apply nth_error_Some; congruence).
      apply wp_aget with (d := mkmblk 0 0); [rewrite app_length; lia|]. rewrite app_nth1 by auto. rewrite (nth_error_nth _ _ _ E). apply wp_ok. split; [rewrite app_length; cbn; lia|].
      intros j Hj. destruct (Nat.eq_dec j i) as [->|Hn].
      * exists b. split; auto. rewrite app_nth2 by lia. rewrite L, Nat.sub_diag. cbn [nth]. reflexivity.
      * destruct (HR j ltac:(lia)) as (b' & E' & H'). exists b'. split; auto. rewrite app_nth1 by lia. auto.
    + intros rv (L & HR). apply wp_ok.
      assert (FL : N.land fl fl_zerooffset = 0%N) by (unfold fl, flags; destruct (c mod 64 =? 0), (1 <? nb); reflexivity).
      assert (FM : N.land fl fl_multiple = if 1 <? nb then fl_multiple else 0%N) by (unfold fl, flags; destruct (c mod 64 =? 0), (1 <? nb); reflexivity).
      assert (OB : forall M, m_blocks M = blocks -> m_flags M = fl -> owns_blocks M = true).
      { intros M E1 E2. unfold owns_blocks. rewrite E1, E2, FL. destruct (Z.eqb_spec blocks 0); [lia|]. reflexivity. }
      apply HQ; cbn [m_addr m_nrows m_ncols m_blocks]; auto.
      * unfold owned. cbn [m_rows m_nrows]. destruct (Z.eqb_spec rows 0); [lia|]. rewrite OB by reflexivity. cbn [m_blocks m_blocksv].
        rewrite removelast_last, app_length. cbn [length app].
        apply ginv_perm with (3 := HI4); [apply Permutation_refl|].
        replace (24 * Z.of_nat (length bv + 1)) with ((nb + 1) * BSIZE) by (unfold BSIZE; lia). replace (8 * (r + 1)) with ((r + 1) * WSIZE) by (unfold WSIZE; ring).
        apply Permutation_sym.
        apply perm_trans with ((blocks, (nb + 1) * BSIZE) :: (rows, (r + 1) * WSIZE) :: map breg bv ++ bl); [apply perm_swap|].
        apply perm_trans with ((blocks, (nb + 1) * BSIZE) :: map breg bv ++ (rows, (r + 1) * WSIZE) :: bl); [constructor; apply Permutation_middle|apply Permutation_middle].
      * split; [exact R0|]. intros _. exists bv. auto.
      * intros _ _. split; [|split; [reflexivity|apply OB; reflexivity]].
        unfold lay. cbn [m_blog m_rowstride m_rowoff m_blocks m_nrows m_rowsv m_ncols m_width m_offset m_blocksv m_flags]. fold br.
        split; [|split; [|split; [|split]]].
        -- repeat split; auto; try lia.
        -- repeat split; auto; lia.
        -- intros i Hi. rewrite Z.add_0_l. destruct (BLK i Hi) as (b & E & K). destruct (HR (Z.to_nat i) ltac:(lia)) as (b' & E' & K'). rewrite Z2Nat.id in E', K' by lia.
           rewrite E in E'. injection E' as <-. exists b. split; [|split; auto; rewrite K'; ring].
           rewrite nth_error_app1; auto. apply nth_error_Some. congruence.
        -- rewrite FM. replace (0 + r - 1) with (r - 1) by ring. destruct (Z.ltb_spec 1 nb), (Z.ltb_spec 0 ((r - 1) / br)); auto; lia.
        -- replace (0 + r - 1) with (r - 1) by ring. intros n Hn. destruct (nth_error bv (Z.to_nat n)) as [b|] eqn:E; [|apply nth_error_None in E; lia].
           exists b. split; [rewrite nth_error_app1; auto; apply nth_error_Some; congruence|]. rewrite (HK _ _ E).
           destruct (Nat.eqb_spec (S (Z.to_nat n)) (Z.to_nat nb)); [lia|reflexivity].
      * intros; lia.
Qed.

(** ** mzd_init_window *)
Definition win_ok (M : mhdr) (lowr lowc highr highc : Z) : Prop :=
  0 <= lowr <= highr /\ lowr <= m_nrows M /\ highr < 2 ^ 31 /\ 0 <= lowc <= highc /\ highc <= m_ncols M /\ lowc mod 64 = 0.

Lemma nth_error_skipn : forall A (l : list A) k n, nth_error (skipn k l) n = nth_error l (k + n).
Proof. intros A l. induction l as [|a l IH]; intros [|k] n; cbn; auto. destruct n; reflexivity. Qed.

Lemma mul_bound : forall x y r B, 0 <= x < y -> 0 < r -> y * r <= B -> 0 <= x * r <= B.
Proof. intros. nia. Qed.

Lemma mzd_init_window_wp : forall static al thr s0 hs bl M wo lowr lowc highr highc g (Q : mhdr * gst -> Prop),
  In (s0, CSIZE) static -> alloc_ok static al -> lay M wo -> win_ok M lowr lowc highr highc -> ginv static s0 hs bl g ->
  (forall W g', ginv static s0 (m_addr W :: hs) (owned W ++ bl) g' -> fok W -> lay W (wo + lowc / 64) ->
     m_nrows W = Z.min (highr - lowr) (m_nrows M - lowr) -> m_ncols W = highc - lowc -> owns_blocks W = false ->
     (forall i, 0 <= i < m_nrows W -> nth (Z.to_nat i) (m_rowsv W) 0 = nth (Z.to_nat (lowr + i)) (m_rowsv M) 0 + 8 * (lowc / 64)) -> Q (W, g')) ->
  wp (mzd_init_window al thr s0 M lowr lowc highr highc g) Q.
Proof.
  intros static al thr s0 hs bl M wo lowr lowc highr highc g Q Hs HA ((A1 & A2 & A3 & A4 & A5 & A6 & A7) & (B1 & B2 & B3 & B4 & B5 & B6) & HR & HFl & HFu)
    (O1 & O2 & O3 & O4 & O5 & O6) HI HQ.
  set (br := 2 ^ Z.of_nat (m_blog M)) in *. set (rs := m_rowstride M) in *. set (ro := m_rowoff M) in *.
  unfold mzd_init_window. apply wp_bind. apply on_h_malloc_wp with (static := static) (hs := hs) (bl := bl); auto. intros a g1 HI1.
  set (nrows := Z.min (highr - lowr) (m_nrows M - lowr)). set (ncols := highc - lowc).
  assert (NR : 0 <= nrows <= m_nrows M - lowr) by lia.
  apply wp_bind. apply wp_cint; [lia|]. apply wp_bind. unfold blog. destruct (Z.eqb_spec (m_blocks M) 0); [lia|]. apply wp_ok. fold br.
  assert (Bpos : 0 < br) by (apply Z.pow_pos_nonneg; lia).
  apply wp_bind. apply wp_cint; [fold ro; lia|]. fold ro rs.
  set (sk := (ro + lowr) / br). set (ro' := (ro + lowr) mod br).
  pose proof (Z.mod_pos_bound (ro + lowr) br ltac:(lia)) as MB. fold ro' in MB.
  pose proof (Z.div_mod (ro + lowr) br ltac:(lia)) as DM. fold ro' sk in DM.
  assert (SK : 0 <= sk) by (apply Z.div_pos; lia).
  pose proof (Z.div_mod lowc 64 ltac:(lia)) as DC. rewrite O6 in DC.
  set (wd := lowc / 64) in *.
  assert (WD : 0 <= wd) by (apply Z.div_pos; lia).
  assert (WW : wd + (ncols + 63) / 64 <= m_width M).
  { rewrite A7. replace (wd + (ncols + 63) / 64) with ((ncols + 63 + wd * 64) / 64) by (rewrite Z.div_add; lia). apply Z.div_le_mono; lia. }
  assert (W0 : 0 <= (ncols + 63) / 64) by (apply Z.div_pos; lia).
  assert (ROS : 0 <= ro * rs <= 2 ^ 27) by (apply mul_bound with br; auto). assert (ROS' : 0 <= ro' * rs <= 2 ^ 27) by (apply mul_bound with br; auto).
  assert (RS27 : rs <= 2 ^ 27) by nia.
  assert (ED : (ro' - ro) * rs = ro' * rs - ro * rs) by ring.
  apply wp_bind. apply wp_cint; [lia|]. apply wp_bind. apply wp_cint; [rewrite B4; lia|]. apply wp_bind. apply wp_cint; [rewrite B4; lia|].
  apply wp_bind.
  assert (ROWS : forall rows g2, (nrows = 0 /\ rows = 0 \/ 0 < rows) -> ginv static s0 (a :: hs) ((if rows =? 0 then [] else [(rows, 8 * (nrows + 1))]) ++ bl) g2 ->
    wp (rv <- for_up 0 (Z.to_nat nrows) (fun i rv => p <- aget (m_rowsv M) (Z.to_nat lowr + i) ;; Ok (rv ++ [p + WSIZE * wd])) [] ;;
        (let W := mkmhdr a nrows ncols ((ncols + 63) / 64) rs (m_offset M + wd + (ro' - ro) * rs) ro'
                    (N.lor fl_zerooffset (if ncols mod 64 =? 0 then fl_zeroexcess else fl_nonzero_excess)) (m_blog M)
                    (m_blocks M + BSIZE * sk) (skipn (Z.to_nat sk) (m_blocksv M)) rows rv in
         k <- row_to_block W (nrows - 1) ;;
         Ok (mkmhdr a nrows ncols ((ncols + 63) / 64) rs (m_offset M + wd + (ro' - ro) * rs) ro'
              (if 0 <? k then N.lor (N.lor fl_zerooffset (if ncols mod 64 =? 0 then fl_zeroexcess else fl_nonzero_excess)) (N.land (m_flags M) fl_multiple)
               else N.lor fl_zerooffset (if ncols mod 64 =? 0 then fl_zeroexcess else fl_nonzero_excess)) (m_blog M)
              (m_blocks M + BSIZE * sk) (skipn (Z.to_nat sk) (m_blocksv M)) rows rv, g2))) Q).
  { intros rows g2 Hrows HI2. apply wp_bind.
    apply wp_for_up with (I := fun i rv => length rv = i /\ forall j, (j < i)%nat -> nth j rv 0 = nth (Z.to_nat lowr + j) (m_rowsv M) 0 + 8 * wd); [lia| | |].
    - split; [reflexivity|]. intros; lia.
    - intros i rv _ Hi (L & H). apply wp_bind. apply wp_aget with (d := 0); [lia|]. apply wp_ok. split; [rewrite app_length; cbn; lia|].
      intros j Hj. destruct (Nat.eq_dec j i) as [->|Hn].
      + rewrite app_nth2 by lia. rewrite L, Nat.sub_diag. reflexivity.
      + rewrite app_nth1 by lia. apply H. lia.
    - intros rv (L & H). unfold row_to_block. cbn [m_rowoff]. apply wp_bind. apply wp_bind. apply wp_cint; [nia|].
      unfold blog. cbn [m_blocks m_blog]. destruct (Z.eqb_spec (m_blocks M + BSIZE * sk) 0); [unfold BSIZE in *; lia|]. cbn [bind]. apply wp_ok. apply wp_ok. fold br.
      set (k := (ro' + (nrows - 1)) / br).
      assert (EK : k = (ro' + nrows - 1) / br) by (unfold k; f_equal; ring).
      assert (KM : 0 < k -> k + sk <= (ro + m_nrows M - 1) / br).
      { intros HK. rewrite EK. replace ((ro' + nrows - 1) / br + sk) with ((ro' + nrows - 1 + sk * br) / br) by (rewrite Z.div_add; lia).
        apply Z.div_le_mono; nia. }
      set (fl := if 0 <? k then N.lor (N.lor fl_zerooffset (if ncols mod 64 =? 0 then fl_zeroexcess else fl_nonzero_excess)) (N.land (m_flags M) fl_multiple)
               else N.lor fl_zerooffset (if ncols mod 64 =? 0 then fl_zeroexcess else fl_nonzero_excess)).
      assert (FM : N.land fl fl_multiple = if 0 <? k then fl_multiple else 0%N).
      { unfold fl. rewrite HFl. destruct (Z.ltb_spec 0 k) as [HK|HK].
        - specialize (KM HK). destruct (Z.ltb_spec 0 ((ro + m_nrows M - 1) / br)); [|lia]. destruct (ncols mod 64 =? 0); reflexivity.
        - destruct (ncols mod 64 =? 0); reflexivity. }
      assert (FO : N.land fl fl_zerooffset <> 0%N /\ N.land fl fl_ownsblocks = 0%N).
      { unfold fl. rewrite HFl. destruct (0 <? k), (0 <? (ro + m_nrows M - 1) / br), (ncols mod 64 =? 0); split; (reflexivity || discriminate). }
      assert (OB : forall W, m_flags W = fl -> owns_blocks W = false).
      { intros W E. unfold owns_blocks. rewrite E. destruct FO as [F1 F2]. rewrite F2. destruct (N.eqb_spec (N.land fl fl_zerooffset) 0); [congruence|]. apply andb_false_r. }
      apply HQ; cbn [m_addr m_nrows m_ncols m_rowsv].
      + unfold owned. cbn [m_rows m_nrows]. rewrite OB by reflexivity. rewrite app_nil_r. exact HI2.
      + split; [cbn [m_nrows]; lia|]. rewrite OB by reflexivity. discriminate.
      + unfold lay. cbn [m_blog m_rowstride m_rowoff m_blocks m_nrows m_rowsv m_ncols m_width m_offset m_blocksv m_flags]. fold br.
        split; [|split; [|split; [|split]]].
        * repeat split; auto; try lia; try (unfold BSIZE; lia).
        * repeat split; auto; try lia.
        * intros i Hi. destruct (HR (lowr + i) ltac:(lia)) as (b & E & K1 & K2). exists b.
          replace (ro + (lowr + i)) with (ro' + i + sk * br) in * by lia.
          rewrite Z.div_add in E by lia. rewrite Z.mod_add in K1, K2 by lia.
          split; [|split; auto].
          -- rewrite nth_error_skipn. rewrite <- E. f_equal. assert (D0 : 0 <= (ro' + i) / br) by (apply Z.div_pos; lia). clear - SK D0. lia.
          -- rewrite H by (clear - Hi; lia). replace (Z.to_nat lowr + Z.to_nat i)%nat with (Z.to_nat (lowr + i)) by (clear - Hi O1; lia). rewrite K1. ring.
        * rewrite FM. rewrite EK. reflexivity.
        * rewrite <- EK. intros m0 Hn. destruct (HFu (sk + m0) ltac:(lia)) as (b & E & K). exists b. split; auto. rewrite nth_error_skipn, <- E. f_equal. clear - SK Hn. lia.
      + reflexivity.
      + reflexivity.
      + apply OB. reflexivity.
      + intros i Hi. rewrite H by (clear - Hi; lia). f_equal. f_equal. clear - Hi O1. lia. }
  destruct (Z.eqb_spec nrows 0) as [E0|N0].
  - apply wp_ok. apply ROWS; auto.
  - apply wp_bind. apply wp_cint; [lia|]. unfold mmc_calloc. apply on_mm_malloc_wp with (static := static) (s0 := s0) (hs := a :: hs) (bl := bl); auto; [unfold WSIZE; lia|].
    intros rows g2 Hrows HI2. apply ROWS; auto. destruct (Z.eqb_spec rows 0); [lia|]. cbn [app]. replace (8 * (nrows + 1)) with ((nrows + 1) * WSIZE) by (unfold WSIZE; ring). exact HI2.
Qed.

(** ** What the layout gives *)
Lemma lay_first_row : forall M wo, lay M wo -> 0 < m_nrows M -> first_row M = Ok (nth 0 (m_rowsv M) 0).
Proof.
  intros M wo ((A1 & A2 & A3 & A4 & A5 & A6 & A7) & (B1 & B2 & B3 & B4 & B5 & B6) & HR & HFl & HFu) H.
  destruct (HR 0 ltac:(lia)) as (b & E & K1 & K2). rewrite Z.add_0_r in *. rewrite Z.div_small in E by auto. rewrite Z.mod_small in K1 by auto.
  change (Z.to_nat 0) with 0%nat in *. unfold first_row. unfold aget. rewrite E. cbn [bind]. rewrite K1, B4. unfold WSIZE. f_equal. ring.
Qed.
Lemma lay_row : forall M wo row, lay M wo -> 0 <= row < m_nrows M -> m_offset M + row * m_rowstride M < 2 ^ 31 ->
  mzd_row M row = Ok (nth (Z.to_nat row) (m_rowsv M) 0).
Proof.
  intros M wo row ((A1 & A2 & A3 & A4 & A5 & A6 & A7) & (B1 & B2 & B3 & B4 & B5 & B6) & HR & HFl & HFu) Hr HO.
  set (br := 2 ^ Z.of_nat (m_blog M)) in *. set (rs := m_rowstride M) in *. set (ro := m_rowoff M) in *.
  assert (Bpos : 0 < br) by (apply Z.pow_pos_nonneg; lia).
  destruct (HR row Hr) as (b & E & K1 & K2). rewrite K1.
  assert (W : wp (mzd_row M row) (fun z => z = kbegin b + 8 * (((ro + row) mod br) * rs + wo))); [|destruct (mzd_row M row); [f_equal; exact W|destruct W]].
  unfold mzd_row. fold rs. apply wp_bind. apply wp_cint; [nia|]. apply wp_bind. apply wp_cint; [nia|].
  pose proof (Z.div_mod (ro + row) br ltac:(lia)) as DM.
  assert (D0 : 0 <= (ro + row) / br) by (apply Z.div_pos; lia).
  assert (D1 : (ro + row) / br <= (ro + m_nrows M - 1) / br) by (apply Z.div_le_mono; lia).
  rewrite HFl. destruct (Z.ltb_spec 0 ((ro + m_nrows M - 1) / br)) as [HM|HM].
  - destruct (HFu 0 ltac:(lia)) as (b0 & E0 & K0). change (Z.to_nat 0) with 0%nat in E0. unfold aget at 1. rewrite E0. cbn [bind].
    change (N.eqb fl_multiple 0) with false. unfold row_to_block, blog. apply wp_bind. apply wp_bind. apply wp_cint; [fold ro; lia|].
    destruct (Z.eqb_spec (m_blocks M) 0); [lia|]. cbn [bind]. apply wp_ok. fold ro br. unfold aget. rewrite E. cbn [bind]. apply wp_ok.
    rewrite K0, B4. unfold WSIZE. replace (8 * (br * rs) / 8) with (br * rs) by (rewrite (Z.mul_comm 8), Z.div_mul; lia).
    replace ((ro + row) mod br) with (ro + row - br * ((ro + row) / br)) by lia. ring.
  - assert (EZ : (ro + row) / br = 0) by lia. rewrite EZ in *. change (Z.to_nat 0) with 0%nat in E. unfold aget. rewrite E. cbn [bind].
    change (N.eqb 0 0) with true. apply wp_ok. rewrite B4. unfold WSIZE. replace ((ro + row) mod br) with (ro + row) by lia. ring.
Qed.
Lemma lay_next_block : forall M wo n, lay M wo -> 0 < n <= (m_rowoff M + m_nrows M - 1) / 2 ^ Z.of_nat (m_blog M) ->
  first_row_next_block M n = Ok (nth (Z.to_nat (n * 2 ^ Z.of_nat (m_blog M) - m_rowoff M)) (m_rowsv M) 0).
Proof.
  intros M wo n ((A1 & A2 & A3 & A4 & A5 & A6 & A7) & (B1 & B2 & B3 & B4 & B5 & B6) & HR & HFl & HFu) Hn.
  set (br := 2 ^ Z.of_nat (m_blog M)) in *. set (rs := m_rowstride M) in *. set (ro := m_rowoff M) in *.
  assert (Bpos : 0 < br) by (apply Z.pow_pos_nonneg; lia).
  pose proof (Z.mul_div_le (ro + m_nrows M - 1) br ltac:(lia)) as HL.
  destruct (HR (n * br - ro) ltac:(nia)) as (b & E & K1 & K2). rewrite K1. replace (ro + (n * br - ro)) with (n * br) in * by ring.
  rewrite Z.div_mul in E by lia. rewrite Z.mod_mul in * by lia.
  assert (W : wp (first_row_next_block M n) (fun z => z = kbegin b + 8 * (0 * rs + wo))); [|destruct (first_row_next_block M n); [f_equal; exact W|destruct W]].
  unfold first_row_next_block. unfold aget. rewrite E. cbn [bind]. apply wp_bind. fold ro rs. apply wp_cint; [nia|]. apply wp_ok. rewrite B4. unfold WSIZE. ring.
Qed.

(** counting the rows of a block *)
Lemma count_all : forall f k, (forall i, (i < k)%nat -> f i = true) -> count f k = Z.of_nat k.
Proof. intros f k. induction k as [|k IH]; intros H; [reflexivity|]. cbn [count]. rewrite IH by auto. rewrite H by auto. lia. Qed.
Lemma count_interval : forall lo hi f k, 0 <= lo -> (forall i, (i < k)%nat -> f i = ((lo <=? Z.of_nat i) && (Z.of_nat i <? hi))%bool) ->
  count f k = Z.max 0 (Z.min hi (Z.of_nat k) - lo).
Proof.
  intros lo hi f k Hlo. induction k as [|k IH]; intros H; [cbn; lia|]. cbn [count]. rewrite IH by auto. rewrite H by auto.
  destruct (Z.leb_spec lo (Z.of_nat k)), (Z.ltb_spec (Z.of_nat k) hi); cbn [andb]; lia.
Qed.
Lemma in_block : forall ro i br n, 0 < br -> ((ro + i) / br =? n) = ((n * br - ro <=? i) && (i <? (n + 1) * br - ro))%bool.
Proof.
  intros ro i br n H. pose proof (Z.div_mod (ro + i) br ltac:(lia)) as D. pose proof (Z.mod_pos_bound (ro + i) br ltac:(lia)) as M.
  destruct (Z.eqb_spec ((ro + i) / br) n) as [E|E]; symmetry.
  - apply andb_true_iff. rewrite Z.leb_le, Z.ltb_lt. subst n. nia.
  - apply andb_false_iff. rewrite Z.leb_gt, Z.ltb_ge. assert (K : (ro + i) / br < n \/ n < (ro + i) / br) by lia. destruct K; nia.
Qed.
Lemma rows_from_eq : forall M n r0, 0 < 2 ^ Z.of_nat (m_blog M) -> 0 <= r0 -> 0 <= m_nrows M ->
  rows_from M n r0 = Z.max 0 (Z.min ((n + 1) * 2 ^ Z.of_nat (m_blog M) - m_rowoff M) (m_nrows M) - Z.max r0 (n * 2 ^ Z.of_nat (m_blog M) - m_rowoff M)).
Proof.
  intros M n r0 Hb Hr Hn. unfold rows_from. set (br := 2 ^ Z.of_nat (m_blog M)) in *.
  rewrite count_interval with (lo := Z.max r0 (n * br - m_rowoff M)) (hi := (n + 1) * br - m_rowoff M); [|lia|].
  - rewrite Z2Nat.id by lia. reflexivity.
  - intros i Hi. rewrite in_block by auto. rewrite andb_assoc. f_equal.
    destruct (Z.leb_spec r0 (Z.of_nat i)), (Z.leb_spec (n * br - m_rowoff M) (Z.of_nat i)), (Z.leb_spec (Z.max r0 (n * br - m_rowoff M)) (Z.of_nat i)); cbn; auto; lia.
Qed.
Lemma lay_rows_in_block : forall M wo n, lay M wo -> 0 < m_nrows M -> 0 <= n <= (m_rowoff M + m_nrows M - 1) / 2 ^ Z.of_nat (m_blog M) + 1 ->
  (n + 1) * 2 ^ Z.of_nat (m_blog M) < 2 ^ 31 ->
  exists z, rows_in_block M n = Ok z /\ Z.max 0 z = rows_from M n 0.
Proof.
  intros M wo n ((A1 & A2 & A3 & A4 & A5 & A6 & A7) & (B1 & B2 & B3 & B4 & B5 & B6) & HR & HFl & HFu) Hp Hn Hb.
  set (br := 2 ^ Z.of_nat (m_blog M)) in *. set (rs := m_rowstride M) in *. set (ro := m_rowoff M) in *.
  assert (Bpos : 0 < br) by (apply Z.pow_pos_nonneg; lia).
  pose proof (Z.mul_div_le (ro + m_nrows M - 1) br ltac:(lia)) as HL. pose proof (Z.mul_succ_div_gt (ro + m_nrows M - 1) br ltac:(lia)) as HG.
  rewrite rows_from_eq by (fold br; lia). fold br ro.
  set (L := (ro + m_nrows M - 1) / br) in *.
  assert (L0 : 0 <= L) by (apply Z.div_pos; lia).
  assert (W : wp (rows_in_block M n) (fun z => Z.max 0 z = Z.max 0 (Z.min ((n + 1) * br - ro) (m_nrows M) - Z.max 0 (n * br - ro))));
    [|destruct (rows_in_block M n) as [z|]; [exists z; split; [reflexivity|exact W]|destruct W]].
  unfold rows_in_block. fold br ro. rewrite HFl. destruct (Z.ltb_spec 0 L) as [HM|HM].
  - change (negb (N.eqb fl_multiple 0)) with true. destruct (Z.eqb_spec n 0) as [->|Nn]; [apply wp_cint; nia|].
    apply wp_bind. unfold row_to_block, blog. apply wp_bind. apply wp_cint; [fold ro; lia|]. destruct (Z.eqb_spec (m_blocks M) 0); [lia|]. cbn [bind]. apply wp_ok.
    fold ro br. replace (ro + (m_nrows M - 1)) with (ro + m_nrows M - 1) by ring. fold L. destruct (Z.ltb_spec n L).
    + apply wp_ok. nia.
    + apply wp_bind. apply wp_cint; [lia|]. apply wp_bind. apply wp_cint; [nia|]. apply wp_cint; [nia|]. nia.
  - change (negb (N.eqb 0 0)) with false. apply wp_ok. destruct (Z.eqb_spec n 0) as [->|Nn]; nia.
Qed.
(** mzd_remaining_rows_in_block is right if the matrix begins at the start of a block *)
Lemma lay_remaining : forall M wo r, lay M wo -> m_rowoff M = 0 -> 0 <= r < m_nrows M -> m_nrows M + 2 ^ Z.of_nat (m_blog M) < 2 ^ 31 ->
  remaining_rows_in_block M r = Ok (rows_from M (r / 2 ^ Z.of_nat (m_blog M)) r).
Proof.
  intros M wo r ((A1 & A2 & A3 & A4 & A5 & A6 & A7) & (B1 & B2 & B3 & B4 & B5 & B6) & HR & HFl & HFu) H0 Hr HB.
  set (br := 2 ^ Z.of_nat (m_blog M)) in *. 
  assert (Bpos : 0 < br) by (apply Z.pow_pos_nonneg; lia).
  rewrite rows_from_eq by (fold br; lia). fold br. rewrite H0 in *. rewrite Z.add_0_l in *. rewrite !Z.sub_0_r.
  pose proof (Z.mul_div_le (m_nrows M - 1) br ltac:(lia)) as HL. pose proof (Z.mul_succ_div_gt (m_nrows M - 1) br ltac:(lia)) as HG.
  pose proof (Z.mul_div_le r br ltac:(lia)) as RL. pose proof (Z.mul_succ_div_gt r br ltac:(lia)) as RG.
  assert (RM : r / br <= (m_nrows M - 1) / br) by (apply Z.div_le_mono; lia).
  assert (R0 : 0 <= r / br) by (apply Z.div_pos; lia).
  assert (W : wp (remaining_rows_in_block M r) (fun z => z = Z.max 0 (Z.min ((r / br + 1) * br) (m_nrows M) - Z.max r (r / br * br))));
    [|destruct (remaining_rows_in_block M r) as [z|]; [f_equal; exact W|destruct W]].
  unfold remaining_rows_in_block. fold br. unfold row_to_block at 1, blog. apply wp_bind. apply wp_bind. rewrite H0. rewrite Z.add_0_l. apply wp_cint; [lia|].
  destruct (Z.eqb_spec (m_blocks M) 0) as [|NB]; [lia|]. cbn [bind]. apply wp_ok. fold br.
  set (n := r / br) in *. set (L := (m_nrows M - 1) / br) in *.
  apply wp_bind. apply wp_cint; [nia|]. apply wp_bind. apply wp_cint; [nia|]. rewrite HFl. destruct (Z.ltb_spec 0 L) as [HM|HM].
  - change (negb (N.eqb fl_multiple 0)) with true. destruct (Z.eqb_spec n 0) as [En|Nn].
    + apply wp_bind. apply wp_cint; [nia|]. apply wp_cint; [nia|]. nia.
    + apply wp_bind. unfold row_to_block, blog. apply wp_bind. rewrite H0, Z.add_0_l. apply wp_cint; [lia|]. destruct (Z.eqb_spec (m_blocks M) 0); [lia|]. cbn [bind]. apply wp_ok.
      fold br L. destruct (Z.ltb_spec n L).
      * apply wp_cint; [nia|]. nia.
      * apply wp_bind. apply wp_cint; [nia|]. apply wp_bind. apply wp_cint; [nia|]. apply wp_cint; nia.
  - change (negb (N.eqb 0 0)) with false. assert (n = 0) by lia. destruct (Z.eqb_spec n 0); [|lia]. apply wp_cint; nia.
Qed.
