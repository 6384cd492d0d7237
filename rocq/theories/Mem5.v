(** Programs with matrices and windows *)
From Coq Require Import Arith ZArith NArith List Bool Lia Permutation.
From Verif Require Import Base ModelMem SpecMem SpecMemRun Mem1 Mem2 Mem3 Mem4.
Import ListNotations.
Open Scope Z_scope.

Lemma top_ge1 : forall l, 1 <= top l.
Proof. induction l as [|a l IH]; cbn [top fold_right]; [lia|]. fold (top l). lia. Qed.
Lemma top_in : forall l r, In r l -> fst r + Z.max 1 (snd r) <= top l.
Proof.
  induction l as [|a l IH]; intros r H; [destruct H|]. cbn [top fold_right]. fold (top l). destruct H as [->|H]; [lia|]. specialize (IH r H). lia.
Qed.
Lemma bump_ok : forall static, alloc_ok static (bump static).
Proof.
  intros static k l size Hs. unfold bump. split; [pose proof (top_ge1 (static ++ l)); lia|].
  intros r Hr. right. apply top_in. apply in_or_app. auto.
Qed.

Definition mok (M : mhdr) : Prop :=
  fok M /\ (0 < m_nrows M -> 0 < m_ncols M -> exists wo, lay M wo) /\ (owns_blocks M = true -> lay M 0) /\
  0 <= m_nrows M /\ (m_blocks M = 0 -> m_nrows M = 0 \/ m_ncols M = 0).
Definition gok (static : list region) (s0 : Z) (live : list mhdr) (bl : list region) (g : gst) : Prop :=
  ginv static s0 (map m_addr live) (concat (map owned live) ++ bl) g /\ Forall mok live.

Lemma init_okb_ok : forall r c, init_okb r c = true -> init_ok r c.
Proof.
  intros r c H. unfold init_okb in H. rewrite !andb_true_iff, !Z.leb_le, !Z.ltb_lt in H. unfold init_ok. tauto.
Qed.
Lemma win_okb_ok : forall M lr lc hr hc, win_okb M lr lc hr hc = true -> 0 < m_nrows M /\ 0 < m_ncols M /\ win_ok M lr lc hr hc.
Proof.
  intros M lr lc hr hc H. unfold win_okb in H. rewrite !andb_true_iff, !Z.leb_le, !Z.ltb_lt, Z.eqb_eq in H. unfold win_ok. tauto.
Qed.
Lemma lay_blocks : forall M wo, lay M wo -> 0 < m_blocks M.
Proof. intros M wo ((H & _) & _). auto. Qed.
Lemma gok_init : forall static al thr s0 live bl r c g (Q : mhdr * gst -> Prop), In (s0, CSIZE) static -> alloc_ok static al -> init_ok r c ->
  gok static s0 live bl g ->
  (forall M g', gok static s0 (M :: live) bl g' -> m_nrows M = r -> m_ncols M = c -> (0 < r -> 0 < c -> owns_blocks M = true /\ lay M 0 /\ m_rowoff M = 0) ->
     (r = 0 \/ c = 0 -> m_blocks M = 0) -> Q (M, g')) ->
  wp (mzd_init al thr s0 r c g) Q.
Proof.
  intros static al thr s0 live bl r c g Q Hs HA HO [HI HF] HQ.
  apply mzd_init_wp with (static := static) (hs := map m_addr live) (bl := concat (map owned live) ++ bl); auto.
  intros M g' HI' FM E1 E2 HL HZ. pose proof HO as (R0 & _ & C0 & _).
  apply HQ; auto; [|intros H1 H2; destruct (HL H1 H2) as (? & ? & ?); auto]. split.
  - cbn [map concat]. rewrite <- app_assoc. exact HI'.
  - constructor; auto. split; [auto|]. split; [|split; [|split; [lia|]]].
    + intros H1 H2. exists 0. apply HL; lia.
    + intros HOB. assert (K : 0 < r /\ 0 < c \/ (r = 0 \/ c = 0)) by lia. destruct K as [[K1 K2]|K]; [apply HL; auto|].
      specialize (HZ K). unfold owns_blocks in HOB. rewrite HZ in HOB. discriminate HOB.
    + intros EB. assert (K : 0 < r /\ 0 < c \/ (r = 0 \/ c = 0)) by lia. destruct K as [[K1 K2]|K]; [|lia].
      destruct (HL K1 K2) as (L & _). apply lay_blocks in L. lia.
Qed.
Lemma gok_window : forall static al thr s0 live bl M lr lc hr hc g (Q : mhdr * gst -> Prop), In (s0, CSIZE) static -> alloc_ok static al ->
  In M live -> win_okb M lr lc hr hc = true -> gok static s0 live bl g ->
  (forall W g', gok static s0 (W :: live) bl g' -> m_nrows W = Z.min (hr - lr) (m_nrows M - lr) -> m_ncols W = hc - lc -> owns_blocks W = false ->
     (exists wo, lay M wo /\ lay W (wo + lc / 64)) ->
     (forall i, 0 <= i < m_nrows W -> row_at W i = row_at M (lr + i) + 8 * (lc / 64)) -> Q (W, g')) ->
  wp (mzd_init_window al thr s0 M lr lc hr hc g) Q.
Proof.
  intros static al thr s0 live bl M lr lc hr hc g Q Hs HA HM HO [HI HF] HQ. apply win_okb_ok in HO. destruct HO as (N1 & N2 & HO).
  rewrite Forall_forall in HF. pose proof (HF M HM) as (_ & HL & _). destruct (HL N1 N2) as [wo HLay].
  apply mzd_init_window_wp with (static := static) (hs := map m_addr live) (bl := concat (map owned live) ++ bl) (wo := wo); auto.
  intros W g' HI' FW LW E1 E2 OW HR. apply HQ; auto; [|exists wo; auto]. split.
  - cbn [map concat]. rewrite <- app_assoc. exact HI'.
  - constructor; [|apply Forall_forall; auto]. split; [auto|]. split; [eauto|]. split; [congruence|]. split.
    + destruct FW; auto.
    + intros EB. apply lay_blocks in LW. lia.
Qed.
Lemma concat_perm : forall A (l l' : list (list A)), Permutation l l' -> Permutation (concat l) (concat l').
Proof.
  intros A l l' P. induction P; cbn [concat]; auto.
  - apply Permutation_app_head. auto.
  - rewrite !app_assoc. apply Permutation_app_tail. apply Permutation_app_comm.
  - apply perm_trans with (1 := IHP1). auto.
Qed.
Lemma g_run_wp : forall static al thr s0 ops live bl g, In (s0, CSIZE) static -> alloc_ok static al -> gok static s0 live bl g ->
  wp (g_run al thr s0 ops live g) (fun o => let '(live', g') := o in gok static s0 live' bl g').
Proof.
  intros static al thr s0 ops. induction ops as [|o ops IH]; intros live bl g Hs HA HG; [apply wp_ok; auto|].
  destruct o as [r c|k lr lc hr hc|k|]; cbn [g_run].
  - destruct (init_okb r c) eqn:E; [|apply IH; auto]. apply init_okb_ok in E. apply wp_bind.
    apply gok_init with (static := static) (live := live) (bl := bl); auto.
  - destruct (nth_error live k) as [M|] eqn:E; [|apply IH; auto]. destruct (win_okb M lr lc hr hc) eqn:EO; [|apply IH; auto]. apply wp_bind.
    apply gok_window with (static := static) (live := live) (bl := bl); auto. apply nth_error_In with (1 := E).
  - destruct (nth_error live k) as [M|] eqn:E; [|apply IH; auto]. apply wp_bind. destruct HG as [HI HF].
    pose proof (split_nth _ live k _ E) as SP.
    apply mzd_free_wp with (static := static) (hs := map m_addr (firstn k live ++ skipn (S k) live)) (bl := concat (map owned (firstn k live ++ skipn (S k) live)) ++ bl); auto.
    + rewrite Forall_forall in HF. apply (HF M). apply nth_error_In with (1 := E).
    + apply ginv_perm with (3 := HI).
      * change (m_addr M :: map m_addr (firstn k live ++ skipn (S k) live)) with (map m_addr (M :: firstn k live ++ skipn (S k) live)). apply Permutation_map; auto.
      * rewrite app_assoc. apply Permutation_app_tail.
        change (owned M ++ concat (map owned (firstn k live ++ skipn (S k) live))) with (concat (map owned (M :: firstn k live ++ skipn (S k) live))).
        apply concat_perm. apply Permutation_map; auto.
    + intros g' HI'. apply IH; auto. split; auto. apply Forall_forall. intros x Hx. rewrite Forall_forall in HF. apply HF.
      apply Permutation_in with (1 := Permutation_sym SP). right. auto.
  - apply wp_bind. destruct HG as [HI HF]. apply on_cleanup_wp with (1 := HI). intros g' HI' _. apply IH; auto. split; auto.
Qed.
Lemma gok_start : forall static s0 h, regions_ok static (hreg h) -> gok static s0 [] (hreg h) (g_start s0 h).
Proof. intros static s0 h H. split; [apply ginv_start; auto|constructor]. Qed.

(** ** What a program can rely on *)
Lemma gok_apart : forall static s0 live bl g, In (s0, CSIZE) static -> gok static s0 live bl g ->
  apart (sregs (map m_addr live) ++ concat (map owned live) ++ bl).
Proof. intros static s0 live bl g Hs [HI _]. apply ginv_apart with (1 := Hs) (2 := HI). Qed.
Lemma ginv_used : forall static s0 hs bl g, ginv static s0 hs bl g -> exists X, Permutation (bl ++ X) (hreg (gheap g)).
Proof.
  intros static s0 hs bl g HI. destruct (ginv_minv _ _ _ _ _ HI) as (X & (_ & _ & P & _) & _). cbn [mslots mheap] in P.
  exists (cached (gslots g) ++ X). apply perm_trans with (2 := P). apply perm_trans with ((cached (gslots g) ++ X) ++ bl); [apply Permutation_app_comm|]. rewrite <- app_assoc. apply Permutation_refl.
Qed.
Lemma ginv_end : forall static s0 bl g, ginv static s0 [] bl g ->
  wp (on_mm_free mmc_cleanup g) (fun g' => Permutation bl (hreg (gheap g'))).
Proof.
  intros static s0 bl g HI. apply on_cleanup_wp with (1 := HI). intros g' (_ & _ & H) E. rewrite E in H. apply hinv_empty in H. exact H.
Qed.
Lemma apart_nth : forall l i j a b, apart l -> nth_error l i = Some a -> nth_error l j = Some b -> i <> j -> separate a b.
Proof.
  intros l i j a b A. revert i j. induction A as [|x l H A IH]; intros i j Ea Eb N; [destruct i; discriminate Ea|].
  destruct i as [|i], j as [|j]; cbn [nth_error] in *.
  - congruence.
  - injection Ea as ->. apply H. apply nth_error_In with (1 := Eb).
  - injection Eb as ->. apply separate_sym. apply H. apply nth_error_In with (1 := Ea).
  - apply IH with i j; auto.
Qed.
(** the rows of a matrix that has its own blocks *)
Lemma own_rows : forall M, mok M -> owns_blocks M = true -> apart (owned M) ->
  (forall i, 0 <= i < m_nrows M -> exists r, In r (owned M) /\ inside (row_region M i) r) /\
  (forall i j, 0 <= i < m_nrows M -> 0 <= j < m_nrows M -> i <> j -> separate (row_region M i) (row_region M j)).
Proof.
  intros M (FM & _ & HL & _) OB AP. specialize (HL OB). destruct FM as [_ FM]. destruct (FM OB) as (data & ED & HF).
  destruct HL as ((A1 & A2 & A3 & A4 & A5 & A6 & A7) & (B1 & B2 & B3 & B4 & B5 & B6) & HR & HFl & HFu).
  set (br := 2 ^ Z.of_nat (m_blog M)) in *. set (rs := m_rowstride M) in *. set (ro := m_rowoff M) in *.
  assert (Bpos : 0 < br) by (apply Z.pow_pos_nonneg; lia).
  assert (W0 : 0 <= m_width M) by (rewrite A7; apply Z.div_pos; lia).
  assert (KEY : forall i, 0 <= i < m_nrows M -> exists b, nth_error data (Z.to_nat ((ro + i) / br)) = Some b /\
     row_at M i = kbegin b + 8 * (((ro + i) mod br) * rs) /\ 8 * (((ro + i) mod br + 1) * rs) <= ksize b).
  { intros i Hi. destruct (HR i Hi) as (b & E & K1 & K2). exists b. split; [|split; auto; unfold row_at; rewrite K1; ring].
    pose proof (Z.mod_pos_bound (ro + i) br ltac:(lia)) as MB.
    rewrite ED in E. destruct (Nat.ltb_spec (Z.to_nat ((ro + i) / br)) (length data)) as [Hl|Hl]; [rewrite nth_error_app1 in E; auto|].
    rewrite nth_error_app2 in E by auto. destruct (Z.to_nat ((ro + i) / br) - length data)%nat as [|k] eqn:EK; [|destruct k; discriminate E].
    injection E as <-. cbn [ksize] in K2. nia. }
  assert (OW : map breg data = map breg (removelast (m_blocksv M))) by (rewrite ED, removelast_last; reflexivity).
  assert (INO : forall b, In b data -> In (breg b) (owned M)).
  { intros b Hb. unfold owned. rewrite OB. apply in_or_app. right. right. rewrite <- OW. apply in_map. auto. }
  assert (AD : apart (map breg data)).
  { unfold owned in AP. rewrite OB, <- OW in AP. apply apart_app in AP. destruct AP as (_ & AP & _). inversion AP; auto. }
  split.
  - intros i Hi. destruct (KEY i Hi) as (b & E & K1 & K2). exists (breg b). split; [apply INO; apply nth_error_In with (1 := E)|].
    pose proof (Z.mod_pos_bound (ro + i) br ltac:(lia)) as MB. unfold inside, row_region, breg. cbn [fst snd]. rewrite K1. nia.
  - intros i j Hi Hj N. destruct (KEY i Hi) as (b & E & K1 & K2). destruct (KEY j Hj) as (b' & E' & K1' & K2').
    pose proof (Z.mod_pos_bound (ro + i) br ltac:(lia)) as MB. pose proof (Z.mod_pos_bound (ro + j) br ltac:(lia)) as MB'.
    pose proof (Z.div_mod (ro + i) br ltac:(lia)) as DM. pose proof (Z.div_mod (ro + j) br ltac:(lia)) as DM'.
    set (mi := (ro + i) mod br) in *. set (mj := (ro + j) mod br) in *.
    unfold separate, row_region. cbn [fst snd]. rewrite K1, K1'. clearbody mi mj.
    destruct (Z.eq_dec ((ro + i) / br) ((ro + j) / br)) as [EB|NB].
    + rewrite EB in *. rewrite E in E'. injection E' as <-. assert (NM : mi <> mj) by lia.
      assert (K : mi + 1 <= mj \/ mj + 1 <= mi) by lia. destruct K; [left|right]; nia.
    + assert (D0 : 0 <= (ro + i) / br) by (apply Z.div_pos; lia). assert (D0' : 0 <= (ro + j) / br) by (apply Z.div_pos; lia).
      assert (S : separate (breg b) (breg b')).
      { apply apart_nth with (l := map breg data) (i := Z.to_nat ((ro + i) / br)) (j := Z.to_nat ((ro + j) / br)); auto;
          [apply map_nth_error; auto|apply map_nth_error; auto|lia]. }
      unfold separate, breg in S. cbn [fst snd] in S. clear - S K2 K2' MB MB' B2 B6 W0 B5. nia.
Qed.
Lemma owned_apart : forall static s0 live bl g M, In (s0, CSIZE) static -> gok static s0 live bl g -> In M live -> apart (owned M).
Proof.
  intros static s0 live bl g M Hs HG HM. apply gok_apart in HG; auto. apply apart_app in HG. destruct HG as (_ & HG & _).
  apply apart_app in HG. destruct HG as (HG & _). destruct (in_split _ _ HM) as (l1 & l2 & ->). rewrite map_app, concat_app in HG. cbn [map concat] in HG.
  apply apart_app in HG. destruct HG as (_ & HG & _). apply apart_app in HG. tauto.
Qed.
