(** Windows, sums and the cutting numbers of ModelStrassen.v *)
From Coq Require Import Arith NArith ZArith List Bool Lia ZifyNat.
From Verif Require Import Base Spec LinAlg ModelM4ri SpecM4ri M4ri1 M4riD ModelM4ri2 M4ri9 M4ri11 M4ri14 M4ri16 M4ri17 ModelStrassen.
Import ListNotations.
Local Open Scope nat_scope.
#[local] Ltac Zify.zify_post_hook ::= Z.to_euclidean_division_equations.

(** ** Windows *)

(** A window can be cut out of C columns: [c] columns starting at [lc] *)
Definition cutok (C lc c : nat) : Prop := lc mod 64 = 0 /\ (c mod 64 = 0 /\ lc + c <= C \/ lc + c = C).

Lemma nth_firstn_lt : forall A (l : list A) n i d, i < n -> nth i (firstn n l) d = nth i l d.
Proof.
  intros A l. induction l as [|x l IH]; intros n i d H; [rewrite firstn_nil; reflexivity|].
  destruct n; [lia|]. destruct i; [reflexivity|]. cbn. apply IH. lia.
Qed.
Lemma nth_skipn_add : forall A (l : list A) n i d, nth i (skipn n l) d = nth (n + i) l d.
Proof.
  intros A l n. revert l. induction n; intros l i d; [reflexivity|].
  destruct l; cbn; [destruct i; reflexivity|]. apply IHn.
Qed.

Lemma cut_words : forall C lc c, cutok C lc c -> lc / 64 + wwidth c <= wwidth C /\
  (lc + c < C -> 64 * (lc / 64 + wwidth c) = lc + c).
Proof. intros C lc c [H1 [[H2 H3]|H2]]; unfold wwidth; lia. Qed.

Lemma wp_wind : forall R C M lr lc hr hc r c (Q : mzd -> Prop), okd R C M -> lc mod 64 = 0 -> lr + r <= R -> lc + c <= C ->
  hr = lr + r -> hc = lc + c ->
  (forall W, okd r c W -> (forall i k, i < r -> rw (nth i (mrows W) []) k = if Nat.ltb k (wwidth c) then rw (nth (lr + i) (mrows M) []) (lc / 64 + k) else 0%N) ->
     (forall i j, i < r -> j < c -> bitat W i j = bitat M (lr + i) (lc + j)) -> Q W) ->
  wp (win M lr lc hr hc) Q.
Proof.
  intros R C M lr lc hr hc r c Q HM HC1 HR HCC -> -> HQ. pose proof HM as (H1 & H2 & H3 & H4).
  assert (HW : lc / 64 + wwidth c <= wwidth C) by (unfold wwidth; lia).
  unfold win. rewrite H1, H2, HC1, Nat.eqb_refl.
  destruct (Nat.ltb_spec R (lr + r)); [lia|]. destruct (Nat.ltb_spec C (lc + c)); [lia|].
  destruct (Nat.ltb_spec (lr + r) lr); [lia|]. destruct (Nat.ltb_spec (lc + c) lc); [lia|]. cbn [negb orb].
  replace (lr + r - lr) with r by lia. replace (lc + c - lc) with c by lia. apply wp_ok.
  set (f := fun row : list N => firstn (wwidth c) (skipn (lc / 64) row)).
  set (rs := firstn r (skipn lr (mrows M))).
  assert (HL : length rs = r) by (unfold rs; rewrite firstn_length, skipn_length; lia).
  assert (HN : forall i, i < r -> nth i (map f rs) [] = f (nth (lr + i) (mrows M) [])).
  { intros i Hi. rewrite (nth_indep _ [] (f [])) by (rewrite map_length; lia). rewrite map_nth. f_equal.
    unfold rs. rewrite nth_firstn_lt, nth_skipn_add by lia. reflexivity. }
  assert (HF : forall i k, i < r -> k < wwidth c -> rw (f (nth (lr + i) (mrows M) [])) k = rw (nth (lr + i) (mrows M) []) (lc / 64 + k)).
  { intros i k Hi Hk. unfold f. rewrite rw_firstn, rw_skipn by lia. reflexivity. }
  assert (HLf : forall i, i < r -> length (f (nth (lr + i) (mrows M) [])) = wwidth c).
  { intros i Hi. unfold f. rewrite firstn_length, skipn_length, (okd_row R C M) by (assumption || lia). lia. }
  assert (HA : forall i k, i < r -> rw (nth i (map f rs) []) k = if Nat.ltb k (wwidth c) then rw (nth (lr + i) (mrows M) []) (lc / 64 + k) else 0%N).
  { intros i k Hi. rewrite HN by exact Hi. destruct (Nat.ltb_spec k (wwidth c)); [apply HF; assumption|].
    unfold rw. apply nth_overflow. rewrite HLf by exact Hi. assumption. }
  apply HQ.
  - refine (conj eq_refl (conj eq_refl (conj _ _))); cbn [mrows]; [rewrite map_length; exact HL|].
    intros i Hi. split; [rewrite HN by exact Hi; apply HLf; exact Hi|]. intros k b. rewrite HA by exact Hi.
    destruct (Nat.ltb k (wwidth c)); [|rewrite tb_0; discriminate]. apply (H4 (lr + i)). lia.
  - exact HA.
  - intros i j Hi Hj. unfold bitat. cbn [mrows]. rewrite !rowbit_tb, HA by exact Hi.
    destruct (Nat.ltb_spec (j / 64) (wwidth c)); [|unfold wwidth in *; lia].
    replace ((lc + j) / 64) with (lc / 64 + j / 64) by lia. replace ((lc + j) mod 64) with (j mod 64) by lia. reflexivity.
Qed.

(** A window of whole words is clean *)
Lemma wp_winw : forall R C M lr lc hr hc r c (Q : mzd -> Prop), okd R C M -> lc mod 64 = 0 -> c mod 64 = 0 -> lr + r <= R -> lc + c <= C ->
  hr = lr + r -> hc = lc + c ->
  (forall W, okm r c W -> (forall i j, i < r -> j < c -> bitat W i j = bitat M (lr + i) (lc + j)) -> Q W) ->
  wp (win M lr lc hr hc) Q.
Proof.
  intros R C M lr lc hr hc r c Q HM H1 H2 HR HC E1 E2 HQ. apply (wp_wind R C M lr lc hr hc r c); auto.
  intros W (W1 & W2 & W3 & W4) EW EB. apply HQ; [|exact EB]. refine (conj W1 (conj W2 (conj W3 _))). intros i Hi.
  split; [apply W4; exact Hi|]. intros k b Hb. split; [apply (W4 i Hi) in Hb; exact Hb|].
  pose proof (proj2 (W4 i Hi) k b Hb) as Hb'. rewrite EW in Hb by exact Hi.
  destruct (Nat.ltb_spec k (wwidth c)); [unfold wwidth in *; lia|]. rewrite tb_0 in Hb. discriminate.
Qed.

Lemma wp_win : forall R C M lr lc hr hc r c (Q : mzd -> Prop), okm R C M -> cutok C lc c -> lr + r <= R ->
  hr = lr + r -> hc = lc + c ->
  (forall W, okm r c W -> (forall i j, i < r -> j < c -> bitat W i j = bitat M (lr + i) (lc + j)) -> Q W) ->
  wp (win M lr lc hr hc) Q.
Proof.
  intros R C M lr lc hr hc r c Q HM HC HR E1 E2 HQ.
  destruct (cut_words C lc c HC) as [HW HE]. pose proof HC as [HC1 HC2].
  apply (wp_wind R C M lr lc hr hc r c); auto; [destruct HC2 as [[]|]; lia|].
  intros W (W1 & W2 & W3 & W4) EW EB. apply HQ; [|exact EB]. refine (conj W1 (conj W2 (conj W3 _))). intros i Hi.
  split; [apply W4; exact Hi|]. intros k b Hb. rewrite EW in Hb by exact Hi.
  destruct (Nat.ltb_spec k (wwidth c)) as [Hk|Hk]; [|rewrite tb_0 in Hb; discriminate].
  destruct HM as (_ & _ & _ & H4). apply (H4 (lr + i)) in Hb; [|lia]. clear - Hb Hk HC2 HC1 HE HW. unfold wwidth in *.
  destruct HC2 as [[]|]; lia.
Qed.

Lemma nth_map_seq : forall A (f : nat -> A) n i d, i < n -> nth i (map f (seq 0 n)) d = f i.
Proof.
  intros A f n i d Hi. rewrite (nth_indep _ d (f n)) by (rewrite map_length, seq_length; exact Hi).
  rewrite map_nth, seq_nth by exact Hi. reflexivity.
Qed.

Lemma put_ok : forall R C M W lr lc r c, okm R C M -> okm r c W -> cutok C lc c -> lr + r <= R ->
  okm R C (put M W lr lc) /\
  forall i j, i < R -> j < C -> bitat (put M W lr lc) i j =
    if Nat.leb lr i && Nat.ltb i (lr + r) && Nat.leb lc j && Nat.ltb j (lc + c) then bitat W (i - lr) (j - lc) else bitat M i j.
Proof.
  intros R C M W lr lc r c HM HW HC HR. pose proof HM as (H1 & H2 & H3 & H4).
  destruct (cut_words C lc c HC) as [HWd HE]. pose proof HC as [HC1 HC2].
  unfold put. rewrite (okm_width r c W HW). pose proof HW as (W1 & W2 & W3 & W4). rewrite W1, H3.
  set (f := fun i => let row := nth i (mrows M) [] in _).
  assert (HT : forall i k, i < R -> rw (f i) k =
    if Nat.leb lr i && Nat.ltb i (lr + r) && Nat.leb (lc / 64) k && Nat.ltb k (lc / 64 + wwidth c)
    then rw (nth (i - lr) (mrows W) []) (k - lc / 64) else rw (nth i (mrows M) []) k).
  { intros i k Hi. unfold f. cbv zeta. destruct (Nat.leb_spec lr i), (Nat.ltb_spec i (lr + r)); cbn [andb]; try reflexivity.
    set (row := nth i (mrows M) []). assert (Lr : length row = wwidth C) by (apply (okm_row R C M); assumption).
    set (wr := nth (i - lr) (mrows W) []). assert (Lw : length wr = wwidth c) by (apply (okm_row r c W); [assumption|lia]).
    unfold rw.
    destruct (Nat.leb_spec (lc / 64) k).
    - rewrite app_nth2 by (rewrite firstn_length; lia). rewrite firstn_length, Nat.min_l by lia.
      destruct (Nat.ltb_spec k (lc / 64 + wwidth c)); cbn [andb].
      + rewrite app_nth1 by lia. reflexivity.
      + rewrite app_nth2 by lia. rewrite nth_skipn_add. f_equal. lia.
    - cbn [andb]. rewrite app_nth1 by (rewrite firstn_length; lia). apply nth_firstn_lt. lia. }
  assert (HL : forall i, i < R -> length (f i) = wwidth C).
  { intros i Hi. unfold f. cbv zeta. destruct (Nat.leb_spec lr i), (Nat.ltb_spec i (lr + r)); cbn [andb];
      try (apply (okm_row R C M); assumption).
    rewrite !app_length, firstn_length, skipn_length, (okm_row R C M), (okm_row r c W) by (assumption || lia). lia. }
  split.
  - refine (conj H1 (conj H2 (conj _ _))); cbn [with_rows mrows]; [rewrite map_length, seq_length; reflexivity|].
    intros i Hi. rewrite nth_map_seq by exact Hi. split; [apply HL; exact Hi|]. intros k b. rewrite HT by exact Hi.
    destruct (Nat.leb_spec lr i), (Nat.ltb_spec i (lr + r)), (Nat.leb_spec (lc / 64) k), (Nat.ltb_spec k (lc / 64 + wwidth c)); cbn [andb];
      try (apply H4; exact Hi).
    intros Hb. apply W4 in Hb; [|lia]. clear - Hb HC1 HC2 H5 H6. destruct HC2 as [[]|]; lia.
  - intros i j Hi Hj. unfold bitat. cbn [with_rows mrows]. rewrite nth_map_seq, rowbit_tb, HT by exact Hi.
    destruct (Nat.leb_spec lr i), (Nat.ltb_spec i (lr + r)); cbn [andb]; try reflexivity.
    replace (Nat.leb (lc / 64) (j / 64)) with (Nat.leb lc j)
      by (destruct (Nat.leb_spec lc j), (Nat.leb_spec (lc / 64) (j / 64)); lia || reflexivity).
    replace (Nat.ltb (j / 64) (lc / 64 + wwidth c)) with (Nat.ltb j (lc + c)).
    2:{ clear - HC1 HC2 Hj. unfold wwidth. destruct (Nat.ltb_spec j (lc + c)), (Nat.ltb_spec (j / 64) (lc / 64 + (c + 63) / 64)); try reflexivity;
          destruct HC2 as [[]|]; lia. }
    destruct (Nat.leb_spec lc j), (Nat.ltb_spec j (lc + c)); cbn [andb]; try reflexivity.
    rewrite rowbit_tb. replace ((j - lc) / 64) with (j / 64 - lc / 64) by lia. replace ((j - lc) mod 64) with (j mod 64) by lia. reflexivity.
Qed.

(** ** _mzd_add *)
Lemma wp_add_into : forall R C C0 A B (Q : mzd -> Prop), okm R C C0 -> okm R C A -> okm R C B ->
  (forall M, okm R C M -> (forall i j, i < R -> bitat M i j = xorb (bitat A i j) (bitat B i j)) -> Q M) ->
  wp (add_into C0 A B) Q.
Proof.
  intros R C C0 A B Q HI HA HB HQ. unfold add_into. rewrite (okm_width R C A HA).
  pose proof HA as [HrA [HcA [HLA HWA]]]. pose proof HB as [HrB [HcB [HLB HWB]]]. pose proof HI as [HrC [HcC [HLC HWC]]].
  rewrite HrA, HrB, HrC, !Nat.min_id. cbv zeta.
  destruct (Nat.eqb_spec (wwidth C) 0) as [E|E].
  { apply wp_ok, HQ; [exact HI|]. intros i j Hi. unfold bitat. rewrite !rowbit_tb. unfold rw.
    rewrite !nth_overflow; [reflexivity| | |].
    - rewrite (okm_row R C B i HB Hi). lia.
    - rewrite (okm_row R C A i HA Hi). lia.
    - rewrite (okm_row R C C0 i HI Hi). lia. }
  assert (HC : 0 < C) by (unfold wwidth in E; lia).
  apply wp_bind, (wp_rows_loop R C C0 _ (fun i j => xorb (bitat A i j) (bitat B i j))); [exact HI| |].
  - intros i rs Hi HLr Hrow.
    apply wp_bind, (wp_aget_row R C); auto. apply wp_bind, (wp_aget_row R C); auto.
    apply wp_bind, (wp_aget _ _ _ []); [lia|]. rewrite Hrow.
    set (a := nth i (mrows A) []). set (b := nth i (mrows B) []). set (c := nth i (mrows C0) []).
    assert (Wa : wfr C a) by (apply HWA; exact Hi). assert (Wb : wfr C b) by (apply HWB; exact Hi).
    assert (Wc : wfr C c) by (apply HI; exact Hi).
    pose proof (proj1 Wa) as La. pose proof (proj1 Wb) as Lb. pose proof (proj1 Wc) as Lc.
    apply wp_bind, (wp_row_loop _ _ _ (fun k _ => N.lxor (rw a k) (rw b k))); [lia| |].
    { intros k _ Hk. apply wp_bind, (wp_aget _ _ _ 0%N); [lia|]. apply wp_bind, (wp_aget _ _ _ 0%N); [lia|].
      apply wp_ok. reflexivity. }
    intros c1 Lc1 H1. apply wp_bind, (wp_aget _ _ _ 0%N); [lia|]. apply wp_bind, (wp_aget _ _ _ 0%N); [lia|].
    apply wp_bind, (wp_aget _ _ _ 0%N); [lia|].
    fold (rw a (wwidth C - 1)) (rw b (wwidth C - 1)) (rw c1 (wwidth C - 1)).
    apply wp_bind, wp_aset; [lia|]. apply wp_aset; [lia|]. eexists. split; [reflexivity|].
    set (x := N.lxor _ (N.land _ _)).
    assert (Hx : forall k t, tb (rw (upd c1 (wwidth C - 1) x) k) t = xorb (tb (rw a k) t) (tb (rw b k) t)).
    { intros k t. rewrite rw_upd by lia. destruct (Nat.eqb_spec k (wwidth C - 1)) as [->|Ne].
      - unfold x. rewrite tb_lxor, tb_land, !tb_lxor, (tb_high R C) by assumption.
        rewrite H1. replace (Nat.leb 0 (wwidth C - 1) && Nat.ltb (wwidth C - 1) (wwidth C - 1)) with false
          by (rewrite Nat.ltb_irrefl, andb_comm; reflexivity).
        destruct (Nat.ltb t 64 && Nat.ltb (64 * (wwidth C - 1) + t) C) eqn:E1.
        + rewrite andb_true_r. destruct (tb (rw a _) t), (tb (rw b _) t), (tb (rw c _) t); reflexivity.
        + rewrite andb_false_r, xorb_false_r.
          assert (F : t < 64 -> 64 * (wwidth C - 1) + t < C -> False).
          { intros F1 F2. apply Nat.ltb_lt in F1, F2. rewrite F1, F2 in E1. discriminate. }
          rewrite (wfr_tb C a), (wfr_tb C b), (wfr_tb C c) by assumption. reflexivity.
      - rewrite H1. destruct (Nat.leb_spec 0 k), (Nat.ltb_spec k (wwidth C - 1)); try lia; cbn [andb].
        + apply tb_lxor.
        + unfold rw. rewrite !nth_overflow by lia. rewrite tb_0. reflexivity. }
    split; [split; [rewrite length_upd; lia|]|].
    + intros k t. rewrite Hx. intros Ht. destruct (tb (rw a k) t) eqn:E1; [apply (proj2 Wa); exact E1|].
      destruct (tb (rw b k) t) eqn:E2; [apply (proj2 Wb); exact E2|discriminate].
    + intros j. rewrite !rowbit_tb, Hx. unfold bitat. rewrite !rowbit_tb. reflexivity.
  - intros rs HM Hs. apply wp_ok, HQ; [exact HM|]. intros i j Hi. apply Hs. exact Hi.
Qed.

(** ** mzd_copy *)
Lemma wp_copy_onto : forall R C C0 P (Q : mzd -> Prop), okm R C C0 -> okm R C P -> 0 < C ->
  (forall M, okm R C M -> (forall i j, i < R -> bitat M i j = bitat P i j) -> Q M) -> wp (copy_onto C0 P) Q.
Proof.
  intros R C C0 P Q HI HP HC HQ. unfold copy_onto. pose proof HP as (H1 & H2 & H3 & H4).
  rewrite (okm_width R C P HP), H1. pose proof HI as (I1 & I2 & I3 & I4).
  assert (HW := wwidth_pos C HC).
  apply wp_bind. apply wp_copy_into; [exact HW|lia|lia| |].
  { intros i Hi. rewrite (proj1 (I4 i Hi)), (proj1 (H4 i Hi)). lia. }
  intros rs L E _. apply wp_ok.
  assert (F : forall i k b, i < R -> tb (rw (nth i rs []) k) b = tb (rw (nth i (mrows P) []) k) b).
  { intros i k b Hi. destruct (E i Hi) as [_ E']. rewrite E'. cbn [Nat.leb andb]. rewrite !Nat.add_0_l.
    replace (k - 0 + 0) with k by lia.
    rewrite (tb_high R C) by auto.
    destruct (Nat.ltb_spec k (wwidth C)), (Nat.ltb_spec k (wwidth C - 1)); try lia; cbn [andb orb]; auto.
    - replace k with (wwidth C - 1) in * by lia.
      destruct (Nat.ltb_spec b 64), (Nat.ltb_spec (64 * (wwidth C - 1) + b) C); cbn [andb]; auto;
        rewrite !(wfr_tb C) by (auto; intros; lia); reflexivity.
    - unfold rw. rewrite !nth_overflow; [reflexivity| |].
      + rewrite (proj1 (H4 i Hi)). lia.
      + rewrite (proj1 (I4 i Hi)). lia. }
  apply HQ.
  - refine (conj I1 (conj I2 (conj _ _))); [simpl; rewrite L; exact I3|].
    intros i Hi. destruct (E i Hi) as [E1 _]. split; [simpl; rewrite E1; apply I4; exact Hi|].
    intros k b. simpl. rewrite F by exact Hi. apply H4. exact Hi.
  - intros i j Hi. unfold bitat. simpl. rewrite !rowbit_tb. apply F. exact Hi.
Qed.

(** ** Products with the method of the four Russians *)

(** C is replaced by A B, or C by C + A B *)
Definition mspec (clear : bool) (m k n : nat) (C A B M : mzd) : Prop :=
  okm m n M /\ forall i j, i < m -> j < n -> bitat M i j = xorb (kept clear C i j) (fmul k (bitat A) (bitat B) i j).

Lemma fits_le : forall r c r' c', fits r c -> r' <= r -> c' <= c -> fits r' c'.
Proof. intros r c r' c' H Hr Hc. unfold fits in *. etransitivity; [|exact H]. apply N.mul_le_mono; lia. Qed.

Definition junk_ok (junk : nat -> list N) : Prop := forall b, length (junk b) = 64 /\ w64 (junk b).

Section M4rm.
Variables (kcache : nat) (junk : nat -> list N).
Hypothesis Hj : junk_ok junk.

Lemma wp_main : forall clear m k n C A B (Q : mzd -> Prop), okm m n C -> okd m k A -> okm k n B -> 1 <= k -> 1 <= n ->
  fits k n -> fits n k -> (forall M, mspec clear m k n C A B M -> Q M) ->
  wp (mul_m4rm_main clear kcache junk C A B 0) Q.
Proof.
  intros clear m k n C A B Q HC HA HB Hk Hn F1 F2 HQ. apply (wp_mul_m4rm_main m k n); auto.
  intros M HM H. apply HQ. split; assumption.
Qed.
Lemma wp_addmul : forall m k n C A B (Q : mzd -> Prop), okm m n C -> okd m k A -> okm k n B -> 1 <= k ->
  fits k n -> fits n k -> (forall M, mspec false m k n C A B M -> Q M) ->
  wp (mzd_addmul_m4rm kcache junk C A B 0) Q.
Proof.
  intros m k n C A B Q HC HA HB Hk F1 F2 HQ. unfold mzd_addmul_m4rm.
  pose proof HC as (C1 & C2 & _). pose proof HA as (A1 & A2 & _). pose proof HB as (B1 & B2 & _).
  rewrite C1, C2, A1, A2, B1, B2, !Nat.eqb_refl. cbn [negb orb].
  destruct (Nat.eqb_spec n 0) as [->|En]; cbn [orb].
  { apply wp_ok, HQ. split; [exact HC|]. intros. lia. }
  destruct (Nat.eqb_spec m 0) as [->|Em].
  { apply wp_ok, HQ. split; [exact HC|]. intros. lia. }
  apply (wp_main false m k n); auto. lia.
Qed.
Lemma wp_m4rm : forall clear m k n C A B (Q : mzd -> Prop), okm m n C -> okd m k A -> okm k n B -> 1 <= k -> (clear = true -> 1 <= n) ->
  fits k n -> fits n k -> (forall M, mspec clear m k n C A B M -> Q M) -> wp (m4rm kcache junk clear C A B) Q.
Proof.
  intros [|] m k n C A B Q HC HA HB Hk Hn F1 F2 HQ; unfold m4rm.
  - apply (wp_main true m k n); auto.
  - apply (wp_addmul m k n); auto.
Qed.
End M4rm.

(** ** Where to cut *)
Definition lim (d : nat) : Prop := (3 * N.of_nat d < 2 ^ 31)%N.
Definition limc (c : nat) : Prop := (4 * N.of_nat c < 2 ^ 31)%N.

Lemma closer_ok : forall a c, lim a -> limc c -> closer a c = Ok (Nat.ltb (3 * a) (4 * c)).
Proof.
  intros a c Ha Hc. unfold closer, lim, limc in *. apply N.ltb_lt in Ha, Hc. rewrite Ha, Hc. cbn [andb]. f_equal.
  destruct (Nat.ltb_spec (3 * a) (4 * c)), (N.ltb_spec (3 * N.of_nat a) (4 * N.of_nat c)); lia || reflexivity.
Qed.
Lemma closer3_ok : forall m k n c, lim m -> lim k -> lim n -> limc c ->
  closer3 m k n c = Ok (Nat.ltb (3 * Nat.min (Nat.min m n) k) (4 * c)).
Proof.
  intros m k n c Hm Hk Hn Hc. unfold closer3. rewrite !closer_ok by assumption. cbn [bind].
  destruct (Nat.ltb_spec (3 * m) (4 * c)), (Nat.ltb_spec (3 * k) (4 * c)), (Nat.ltb_spec (3 * n) (4 * c)),
    (Nat.ltb_spec (3 * Nat.min (Nat.min m n) k) (4 * c)); try reflexivity; lia.
Qed.

Lemma cut_mult_ok : forall fuel d width mult cutoff, 64 <= cutoff -> mult * width <= 32 * d -> (mult = 64 \/ 128 <= mult /\ mult <= d) ->
  let x := cut_mult fuel width mult cutoff in x = 64 \/ 128 <= x /\ x <= d.
Proof.
  induction fuel as [|fuel IH]; intros d width mult cutoff Hc Hm Hx; [exact Hx|].
  cbn [cut_mult]. destruct (Nat.ltb_spec cutoff width) as [H|H]; [|exact Hx].
  apply IH; [exact Hc| |].
  - assert (2 * (width / 2) <= width) by (clear; lia). nia.
  - right. split; [clear - Hx; lia|]. nia.
Qed.
Lemma mult_ok : forall d cutoff, 64 <= cutoff -> mult_of d cutoff = 64 \/ 128 <= mult_of d cutoff /\ mult_of d cutoff <= d.
Proof. intros d cutoff Hc. apply cut_mult_ok; [exact Hc| |left; reflexivity]. clear. lia. Qed.

Lemma half_ok : forall m d cutoff, 64 <= cutoff -> 128 <= m -> d <= m ->
  let h := half m (mult_of d cutoff) in h mod 64 = 0 /\ 64 <= h /\ 2 * h <= m.
Proof.
  intros m d cutoff Hc Hm Hd. unfold half. cbv zeta. pose proof (mult_ok d cutoff Hc) as HM. set (u := mult_of d cutoff) in *. clearbody u.
  assert (E : m - m mod u = u * (m / u)) by (pose proof (Nat.div_mod m u ltac:(lia)); lia). rewrite E.
  assert (H1 : 128 <= u * (m / u)).
  { destruct HM as [->|[HM1 HM2]]; [clear - Hm; lia|]. assert (1 <= m / u) by (apply Nat.div_le_lower_bound; lia). nia. }
  assert (H2 : u * (m / u) <= m) by (apply Nat.mul_div_le; lia).
  set (z := u * (m / u)) in *. clearbody z. clear - H1 H2. lia.
Qed.
