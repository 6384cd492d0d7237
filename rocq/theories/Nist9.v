(** Maurer's universal test and the frequency test within blocks. *)
From Coq Require Import Arith NArith ZArith QArith List Bool Lia.
From Verif Require Import Base Spec LinAlg Mem ModelRank ModelBM ModelNist ModelNist2 SpecNist SpecNist2 LCCount RankCount Nist1 Nist2 Nist3 Nist5.
Import ListNotations.
Local Open Scope nat_scope.

(** ** pattern2int *)
Lemma p2i_snoc : forall w x, pattern2int (w ++ [x]) = (2 * pattern2int w + x)%N.
Proof. intros. unfold pattern2int. rewrite fold_left_app. cbn [fold_left]. rewrite N.shiftl_mul_pow2. change (2 ^ 1)%N with 2%N. lia. Qed.
Lemma p2i_lt : forall w, isbits w -> (pattern2int w < 2 ^ N.of_nat (length w))%N.
Proof.
  intros w. induction w as [|x w IH] using rev_ind; intros H; [reflexivity|]. rewrite p2i_snoc, app_length, Nat2N.inj_add. cbn [length]. change (N.of_nat 1) with 1%N. rewrite N.add_1_r, N.pow_succ_r'.
  assert (I := IH ltac:(intros y Hy; apply H, in_app_iff; auto)). destruct (H x ltac:(apply in_app_iff; simpl; auto)) as [-> | ->]; lia.
Qed.
Lemma p2i_inj : forall w v, isbits w -> isbits v -> length w = length v -> pattern2int w = pattern2int v -> w = v.
Proof.
  intros w. induction w as [|x w IH] using rev_ind; intros v Hw Hv HL E.
  - destruct v; [reflexivity|discriminate].
  - destruct (exists_last (l := v)) as (v' & y & ->); [intros ->; rewrite app_length in HL; simpl in HL; lia|].
    rewrite !app_length in HL. simpl in HL. rewrite !p2i_snoc in E.
    assert (Hx := Hw x ltac:(apply in_app_iff; simpl; auto)). assert (Hy := Hv y ltac:(apply in_app_iff; simpl; auto)).
    assert (E1 : pattern2int w = pattern2int v') by lia. assert (E2 : x = y) by lia.
    subst y. f_equal. apply IH; auto; try lia; intros z Hz; [apply Hw|apply Hv]; apply in_app_iff; auto.
Qed.

(** ** The distances *)
Definition blk (L : nat) (bits : list N) (i : nat) : list N := firstn L (skipn (i * L) bits).
Lemma blk_slice : forall L bits i, pyslice bits (i * L) ((i + 1) * L) = blk L bits i.
Proof. intros. unfold pyslice, blk. f_equal. lia. Qed.
(** the last position of w among the first i blocks, counted from 1; 0 if there is none *)
Fixpoint lastpos (L : nat) (bits : list N) (w : list N) (i : nat) : nat :=
  match i with O => 0 | S k => if eqlist (blk L bits k) w then S k else lastpos L bits w k end.
Lemma lastpos_spec : forall L bits w i, lastpos L bits w i <= i /\
  (0 < lastpos L bits w i -> blk L bits (lastpos L bits w i - 1) = w) /\ forall k, lastpos L bits w i <= k < i -> blk L bits k <> w.
Proof.
  intros L bits w. induction i as [|i (I1 & I2 & I3)]; cbn [lastpos].
  - split; [lia|]. split; [lia|]. intros k Hk. lia.
  - destruct (eqlist (blk L bits i) w) eqn:E.
    + apply eqlist_iff in E. split; [lia|]. split; [intros _; replace (S i - 1) with i by lia; exact E|]. intros k Hk. lia.
    + split; [lia|]. split; [exact I2|]. intros k Hk. destruct (Nat.eq_dec k i) as [->|]; [|apply I3; lia]. intros K. apply eqlist_iff in K. congruence.
Qed.
Definition tinv (L : nat) (bits : list N) (i : nat) (T : list nat) : Prop :=
  length T = 2 ^ L /\ forall w, length w = L -> isbits w -> nth (N.to_nat (pattern2int w)) T 0 = lastpos L bits w i.
Lemma blk_ok : forall L bits n i, isbits bits -> n * L <= length bits -> i < n -> length (blk L bits i) = L /\ isbits (blk L bits i).
Proof.
  intros L bits n i Hb Hn Hi. unfold blk. split.
  - rewrite firstn_length, skipn_length. nia.
  - intros x Hx. apply Hb. rewrite <- (firstn_skipn (i * L) bits). apply in_app_iff. right. rewrite <- (firstn_skipn L (skipn (i * L) bits)). apply in_app_iff. auto.
Qed.
Lemma p2i_ix : forall w, isbits w -> N.to_nat (pattern2int w) < 2 ^ length w.
Proof.
  intros w H. assert (K := p2i_lt w H).
  assert (P2 : N.of_nat (2 ^ length w) = (2 ^ N.of_nat (length w))%N) by (generalize (length w); intros m; induction m as [|m IH]; [reflexivity|]; rewrite Nat2N.inj_succ, N.pow_succ_r', <- IH, Nat.pow_succ_r'; lia).
  lia.
Qed.
Lemma tinv_step : forall L bits n i T, isbits bits -> n * L <= length bits -> i < n -> tinv L bits i T ->
  tinv L bits (S i) (upd T (N.to_nat (pattern2int (blk L bits i))) (i + 1)).
Proof.
  intros L bits n i T Hb Hn Hi [TL TN]. destruct (blk_ok L bits n i Hb Hn Hi) as [BL BB]. assert (Hix := p2i_ix _ BB). rewrite BL in Hix.
  split; [rewrite length_upd; exact TL|]. intros w HL HW. rewrite nth_upd by lia. cbn [lastpos].
  destruct (Nat.eqb_spec (N.to_nat (pattern2int w)) (N.to_nat (pattern2int (blk L bits i)))) as [E|E].
  - assert (X : blk L bits i = w) by (apply p2i_inj; auto; lia). rewrite (proj2 (eqlist_iff _ _) X). lia.
  - destruct (eqlist (blk L bits i) w) eqn:E2; [apply eqlist_iff in E2; congruence|]. apply TN; auto.
Qed.
Lemma maurer_ok : forall L Q n bits, isbits bits -> n * L <= length bits -> Q <= n ->
  maurer_dists L Q n bits = Ok (map (fun i => i + 1 - lastpos L bits (blk L bits i) i) (seq Q (n - Q))).
Proof.
  intros L Q n bits Hb Hn HQ. assert (W : wp (maurer_dists L Q n bits) (fun ds => ds = map (fun i => i + 1 - lastpos L bits (blk L bits i) i) (seq Q (n - Q)))).
  2: { apply wp_exists in W as (ds & -> & ->). reflexivity. }
  unfold maurer_dists. apply wp_bind. apply (wp_for_up _ (fun t T => tinv L bits t T)); [lia| | |].
  - split; [apply repeat_length|]. intros w _ _. cbn [lastpos]. apply nth_repeat.
  - intros i T _ Hi HT. rewrite blk_slice. destruct (blk_ok L bits n i Hb Hn ltac:(lia)) as [BL BB]. assert (Hix := p2i_ix _ BB). rewrite BL in Hix.
    apply wp_aset; [rewrite (proj1 HT); exact Hix|]. apply (tinv_step L bits n); auto; lia.
  - intros T HT. apply wp_bind.
    apply (wp_for_up _ (fun t st => tinv L bits t (fst st) /\ snd st = map (fun i => i + 1 - lastpos L bits (blk L bits i) i) (seq Q (t - Q)))); [lia| | |].
    + split; [exact HT|]. rewrite Nat.sub_diag. reflexivity.
    + intros i [T' ds] Hi1 Hi2 [H1 H2]. cbn [fst snd] in *. subst ds. cbv zeta. rewrite blk_slice. destruct (blk_ok L bits n i Hb Hn Hi2) as [BL BB]. assert (Hix := p2i_ix _ BB). rewrite BL in Hix.
      rewrite (aget_ok _ _ _ 0) by (rewrite (proj1 H1); exact Hix). cbn [bind]. apply wp_bind, wp_aset; [rewrite (proj1 H1); exact Hix|]. apply wp_ok. cbn [fst snd].
      split; [apply (tinv_step L bits n); auto|]. rewrite (proj2 H1) by auto. replace (S i - Q) with (S (i - Q)) by lia. rewrite seq_S, map_app. cbn [map]. replace (Q + (i - Q)) with i by lia. reflexivity.
    + intros [T' ds] [_ H]. apply wp_ok. exact H.
Qed.

(** ** The block length *)
Lemma maurer_L_ok : forall n, (387840 <= n)%N -> exists L, maurer_L n = Some L /\ 6 <= L <= 16 /\
  (1010 * 2 ^ N.of_nat L * N.of_nat L <= n)%N /\ (L < 16 -> (n < 1010 * 2 ^ N.of_nat (S L) * N.of_nat (S L))%N).
Proof.
  intros n Hn. unfold maurer_L. destruct (N.ltb_spec n 387840); [lia|]. cbn [fold_left]. eexists. split; [reflexivity|].
  Local Ltac leaf n := repeat match goal with |- context [(?a <=? n)%N] =>
      first [rewrite (proj2 (N.leb_gt a n)) by lia | rewrite (proj2 (N.leb_le a n)) by lia] end;
    cbn [Nat.add]; refine (conj _ (conj _ _)); [lia| |intros; try lia];
    match goal with |- (?e <= _)%N => let v := eval vm_compute in e in change e with v | |- (_ < ?e)%N => let v := eval vm_compute in e in change e with v end; lia.
  destruct (N.lt_ge_cases n 904960); [leaf n|].
  destruct (N.lt_ge_cases n 2068480); [leaf n|].
  destruct (N.lt_ge_cases n 4654080); [leaf n|].
  destruct (N.lt_ge_cases n 10342400); [leaf n|].
  destruct (N.lt_ge_cases n 22753280); [leaf n|].
  destruct (N.lt_ge_cases n 49643520); [leaf n|].
  destruct (N.lt_ge_cases n 107560960); [leaf n|].
  destruct (N.lt_ge_cases n 231669760); [leaf n|].
  destruct (N.lt_ge_cases n 496435200); [leaf n|].
  destruct (N.lt_ge_cases n 1059061760); [leaf n|].
  leaf n.
Qed.

(** ** Frequency within a block *)
Lemma freq_params_ok : forall n, 100 <= n -> let '(M, N) := freq_params n in 20 <= M /\ 5 <= N < 100 /\ N * M <= n.
Proof.
  intros n Hn. unfold freq_params. assert (H1 := Nat.div_mod n 20 ltac:(lia)). assert (H2 := Nat.mod_upper_bound n 20 ltac:(lia)).
  destruct (Nat.ltb_spec 99 (n / 20)) as [H|H].
  - assert (H3 := Nat.div_mod n 99 ltac:(lia)). assert (H4 := Nat.mod_upper_bound n 99 ltac:(lia)). refine (conj _ (conj _ _)); [nia|lia|nia].
  - refine (conj _ (conj _ _)); [lia| |lia]. split; [|lia]. apply Nat.div_le_lower_bound; lia.
Qed.
Lemma freq_ok : forall bits, 100 <= length bits -> let '(M, N) := freq_params (length bits) in
  (freq_chisq bits == fold_right Qplus 0 (map (fun i => let d := (2 * Z.of_nat (ones (firstn M (skipn (i * M) bits))) - Z.of_nat M)%Z in inject_Z (d * d) / inject_Z (Z.of_nat M)) (seq 0 N)))%Q.
Proof.
  intros bits HL. assert (P := freq_params_ok _ HL). unfold freq_chisq. destruct (freq_params (length bits)) as [M N]. destruct P as (P1 & P2 & P3).
  assert (HM : ~ (inject_Z (Z.of_nat M) == 0)%Q) by (intros K; change 0%Q with (inject_Z 0) in K; apply (proj1 (inject_Z_injective _ _)) in K; lia).
  assert (G : forall l a, (fold_left (fun chisq i => let '(_, ones) := count_ones_zeroes (pyslice bits (i * M) ((i + 1) * M)) in
     let prop := (inject_Z (Z.of_nat ones) / inject_Z (Z.of_nat M))%Q in (chisq + 4 * inject_Z (Z.of_nat M) * ((prop - (1 # 2)) * (prop - (1 # 2))))%Q) l a ==
     a + fold_right Qplus 0 (map (fun i => let d := (2 * Z.of_nat (ones (firstn M (skipn (i * M) bits))) - Z.of_nat M)%Z in inject_Z (d * d) / inject_Z (Z.of_nat M)) l))%Q).
  { induction l as [|i l IH]; intros a; cbn [fold_left map fold_right]; [ring|]. rewrite IH. clear IH. rewrite (proj1 (coz _)). cbv beta iota zeta.
    rewrite blk_slice. unfold blk. unfold Z.sub. rewrite inject_Z_mult, inject_Z_plus, inject_Z_opp, inject_Z_mult. change (inject_Z 2) with 2%Q.
    set (s := fold_right _ _ _). clearbody s. set (o := inject_Z (Z.of_nat (ones _))). field. exact HM. }
  rewrite G, Qplus_0_l. reflexivity.
Qed.
