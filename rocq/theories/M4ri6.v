(** mzd_find_pivot: the first column with a bit set in the rows from start_row on. *)
From Coq Require Import Arith NArith ZArith List Bool Lia ZifyNat.
From Verif Require Import Base Spec LinAlg ModelM4ri SpecM4ri M4ri1 M4ri2 M4ri3 M4ri4.
Import ListNotations.
#[local] Ltac Zify.zify_post_hook ::= Z.to_euclidean_division_equations.

(** ** m4ri_lesser_LSB *)

Lemma lsb_exists : forall a, a <> 0%N -> exists d m, a = ((2 * m + 1) * 2 ^ N.of_nat d)%N.
Proof.
  intros [|p] H; [congruence|]. clear H. induction p as [p IH|p IH|].
  - exists 0, (N.pos p). rewrite N.mul_1_r. reflexivity.
  - destruct IH as (d & m & E). exists (S d), m. rewrite Nat2N.inj_succ, N.pow_succ_r by lia.
    change (N.pos p~0) with (2 * N.pos p)%N. rewrite E. lia.
  - exists 0, 0%N. reflexivity.
Qed.
Lemma lsb_bits : forall d m e, e <= d -> tb ((2 * m + 1) * 2 ^ N.of_nat d) e = Nat.eqb e d.
Proof.
  intros d m e He. unfold tb. destruct (Nat.eqb_spec e d) as [->|].
  - rewrite N.mul_pow2_bits_high by lia. rewrite N.sub_diag. apply N.testbit_odd_0.
  - apply N.mul_pow2_bits_low. lia.
Qed.
Lemma pred_mod : forall a, a <> 0%N -> (a < 2 ^ 64)%N -> ((a + (2 ^ 64 - 1)) mod 2 ^ 64 = a - 1)%N.
Proof.
  intros a H1 H2. replace (a + (2 ^ 64 - 1))%N with (a - 1 + 1 * 2 ^ 64)%N by lia.
  rewrite N.mod_add by discriminate. apply N.mod_small. lia.
Qed.
Lemma nonzero_bit : forall a, a <> 0%N -> exists e, tb a e = true.
Proof. intros a H. exists (N.to_nat (N.log2 a)). unfold tb. rewrite N2Nat.id. apply N.bit_log2. exact H. Qed.
Lemma bit_nonzero : forall a e, tb a e = true -> a <> 0%N.
Proof. intros a e H ->. rewrite tb_0 in H. discriminate. Qed.

Lemma lesser_true : forall a b, (a < 2 ^ 64)%N -> (b < 2 ^ 64)%N -> lesser_LSB a b = true ->
  exists d, tb a d = true /\ forall e, e <= d -> tb b e = false.
Proof.
  intros a b Ha Hb H. unfold lesser_LSB in H. destruct (N.eqb_spec b 0) as [->|Hb0].
  - destruct (N.eqb_spec a 0) as [|Ha0]; [discriminate|]. destruct (nonzero_bit a Ha0) as (d & Hd). exists d.
    split; [exact Hd|]. intros. apply tb_0.
  - rewrite negb_involutive in H. apply N.eqb_eq in H. destruct (N.eq_dec a 0) as [->|Ha0].
    + exfalso. change ((0 + (2 ^ 64 - 1)) mod 2 ^ 64)%N with ffff in H. rewrite N.lxor_0_r in H.
      destruct (nonzero_bit b Hb0) as (e & He).
      assert (E : tb (N.land ffff b) e = true).
      { rewrite tb_land, tb_ffff, He. destruct (Nat.ltb_spec e 64) as [|H64]; auto. exfalso.
        change (2 ^ 64)%N with (2 ^ N.of_nat 64)%N in Hb. rewrite (proj1 (tb_lt b 64) Hb e H64) in He. discriminate. }
      rewrite H, tb_0 in E. discriminate.
    + rewrite pred_mod in H by auto. destruct (lsb_exists a Ha0) as (d & m & E). exists d. split.
      * rewrite E, lsb_bits by lia. apply Nat.eqb_refl.
      * intros e He. assert (P := pred_bits d a m e E). destruct (Nat.leb_spec e d); [|lia].
        assert (X : tb (N.land (N.lxor (a - 1) a) b) e = false) by (rewrite H; apply tb_0).
        rewrite tb_land, tb_lxor, xorb_comm, P in X. exact X.
Qed.
Lemma lesser_false : forall a b, (a < 2 ^ 64)%N -> lesser_LSB a b = false ->
  forall d, tb a d = true -> exists e, e <= d /\ tb b e = true.
Proof.
  intros a b Ha H d Hd. unfold lesser_LSB in H. assert (Ha0 := bit_nonzero a d Hd).
  destruct (N.eqb_spec b 0) as [->|Hb0].
  - destruct (N.eqb_spec a 0); [contradiction|discriminate].
  - rewrite negb_involutive in H. apply N.eqb_neq in H. rewrite pred_mod in H by auto.
    destruct (nonzero_bit _ H) as (e & He). rewrite tb_land, tb_lxor in He. apply andb_true_iff in He as [H1 H2].
    exists e. split; auto. destruct (lsb_exists a Ha0) as (d' & m & E). rewrite xorb_comm, (pred_bits d' a m e E) in H1.
    apply Nat.leb_le in H1. destruct (Nat.lt_ge_cases d d') as [Hdd|Hdd]; [|lia]. exfalso.
    rewrite E, lsb_bits in Hd by lia. apply Nat.eqb_eq in Hd. lia.
Qed.

(** ** The scan of the rows *)

Definition lowest (r t : nat) (f : nat -> N) (i : nat) (data : N) : Prop :=
  (data = 0%N /\ (forall i', r <= i' -> i' < t -> f i' = 0%N)) \/
  (data <> 0%N /\ r <= i /\ i < t /\ data = f i /\
   forall i' e, r <= i' -> i' < t -> tb (f i') e = true -> exists d, d <= e /\ tb data d = true).

Lemma wp_pivot_scan : forall R M r read stop f (Q : nat * N -> Prop), mnrows M = R -> r <= R ->
  (forall i, r <= i -> i < R -> wp (read i) (fun v => v = f i)) ->
  (forall i, r <= i -> i < R -> (f i < 2 ^ 64)%N) ->
  (forall v, stop v = true -> exists o, tb v o = true /\ forall i e, r <= i -> i < R -> e < o -> tb (f i) e = false) ->
  (forall i data, lowest r R f i data -> Q (i, data)) ->
  wp (pivot_scan M r read stop) Q.
Proof.
  intros R M r read stop f Q HR Hr Hread Hf Hstop HQ. unfold pivot_scan. rewrite HR. apply wp_bind.
  apply (wp_for_ret _ _ (fun t '(i, data) => lowest r t f i data)); auto.
  - left. split; auto. intros; lia.
  - intros t [cand data] Ht1 Ht2 HI. apply wp_bind. apply (wp_mono _ _ _ _ (Hread t Ht1 Ht2)). intros curr ->.
    assert (Hd64 : (data < 2 ^ 64)%N).
    { destruct HI as [[-> _]|(_ & H1 & H2 & -> & _)]; [reflexivity|apply Hf; lia]. }
    destruct (lesser_LSB (f t) data) eqn:EL.
    + destruct (lesser_true _ _ (Hf t Ht1 Ht2) Hd64 EL) as (d & Hd1 & Hd2).
      destruct (stop (f t)) eqn:ES; apply wp_ok.
      * apply HQ. destruct (Hstop _ ES) as (o & Ho1 & Ho2). right.
        refine (conj (bit_nonzero _ _ Ho1) (conj Ht1 (conj Ht2 (conj eq_refl _)))).
        intros i' e H1 H2 He. exists o. split; auto. destruct (Nat.lt_ge_cases e o); auto. exfalso.
        rewrite Ho2 in He by auto. discriminate.
      * right. refine (conj (bit_nonzero _ _ Hd1) (conj Ht1 (conj (Nat.lt_succ_diag_r t) (conj eq_refl _)))).
        intros i' e H1 H2 He. destruct (Nat.eq_dec i' t) as [->|]; [exists e; auto|].
        exists d. split; auto. destruct HI as [[_ Hz]|(_ & _ & _ & _ & Hm)].
        -- rewrite Hz, tb_0 in He by lia. discriminate.
        -- destruct (Hm i' e H1 ltac:(lia) He) as (d' & Hd'1 & Hd'2).
           destruct (Nat.lt_ge_cases d' d); [rewrite Hd2 in Hd'2 by lia; discriminate|lia].
    + apply wp_ok. assert (HL := lesser_false _ _ (Hf t Ht1 Ht2) EL).
      destruct HI as [[-> Hz]|(H0 & H1 & H2 & H3 & H4)].
      * left. split; auto. intros i' Hi1 Hi2. destruct (Nat.eq_dec i' t) as [->|]; [|apply Hz; lia].
        destruct (N.eq_dec (f t) 0) as [|Hne]; auto. exfalso. destruct (nonzero_bit _ Hne) as (e & He).
        destruct (HL e He) as (e' & _ & He'). rewrite tb_0 in He'. discriminate.
      * right. refine (conj H0 (conj H1 (conj (Nat.lt_lt_succ_r _ _ H2) (conj H3 _)))). intros i' e Hi1 Hi2 He.
        destruct (Nat.eq_dec i' t) as [->|]; [|apply (H4 i' e); auto; lia].
        destruct (HL e He) as (e' & He1 & He2). exists e'. auto.
  - intros [i data] HI. apply HQ. exact HI.
Qed.

Lemma wp_pivot_col : forall data len base e (Q : nat -> Prop), tb data e = true -> e < len ->
  (forall l, l < len -> tb data l = true -> (forall l', l' < l -> tb data l' = false) -> Q (base + l)) ->
  wp (pivot_col data len base) Q.
Proof.
  intros data len base e Q He Hlen HQ. unfold pivot_col. apply wp_bind.
  apply (wp_find_up (fun l => tb data l)); [lia| | |].
  - intros l _ _. apply wp_ok. apply get_bit_tb.
  - intros l _ Hl Hb Hm. apply wp_ok. apply HQ; auto. intros l' Hl'. apply Hm; lia.
  - intros Hz. rewrite Hz in He by lia. discriminate.
Qed.

(** ** mzd_find_pivot *)

Definition pivot_at (R C : nat) (B : fmat) (r c : nat) (x : option (nat * nat)) : Prop :=
  match x with
  | Some (i, cc) => r <= i /\ i < R /\ c <= cc /\ cc < C /\ B i cc = true /\
      forall i' j, r <= i' -> i' < R -> c <= j -> j < cc -> B i' j = false
  | None => forall i' j, r <= i' -> i' < R -> c <= j -> j < C -> B i' j = false
  end.

(** A scan of the [len] columns from [base] on, with bit o + l for column base + l *)
Lemma lowest_col : forall R C M r c f i data o base len (Q : option (nat * nat) -> Prop), okm R C M -> r <= R ->
  lowest r R f i data -> data <> 0%N ->
  (forall i b, r <= i -> i < R -> tb (f i) b = Nat.leb o b && Nat.ltb b (o + len) && bitat M i (base + (b - o))) ->
  c <= base -> base + len <= C ->
  (forall i' j, r <= i' -> i' < R -> c <= j -> j < base -> bitat M i' j = false) ->
  (forall x, pivot_at R C (bitat M) r c x -> Q x) ->
  (forall d, (forall b, tb d b = tb data (b + o)) -> wp (c <- pivot_col d len base ;; Ok (Some (i, c))) Q).
Proof.
  intros R C M r c f i data o base len Q HM Hr HL H0 Hf Hc Hlen Hz HQ d Hd.
  destruct HL as [[? _]|(_ & H1 & H2 & H3 & H4)]; [contradiction|]. subst data.
  destruct (nonzero_bit _ H0) as (e & He). assert (He' := He). rewrite Hf in He' by auto.
  apply andb_true_iff in He' as [He' _]. apply andb_true_iff in He' as [Ho1 Ho2].
  apply Nat.leb_le in Ho1. apply Nat.ltb_lt in Ho2.
  apply wp_bind. apply (wp_pivot_col d len base (e - o)); [rewrite Hd; replace (e - o + o) with e by lia; exact He|lia|].
  intros l Hl Hb Hm. apply wp_ok, HQ. rewrite Hd, Hf in Hb by auto. apply andb_true_iff in Hb as [_ Hb].
  replace (l + o - o) with l in Hb by lia.
  refine (conj H1 (conj H2 (conj _ (conj _ (conj Hb _))))); [lia|lia|].
  intros i' j Hi1 Hi2 Hj1 Hj2. destruct (Nat.lt_ge_cases j base) as [Hjb|Hjb]; [apply Hz; auto|].
  destruct (bitat M i' j) eqn:Eb; auto. exfalso.
  assert (Hbit : tb (f i') (o + (j - base)) = true).
  { rewrite Hf by auto. destruct (Nat.leb_spec o (o + (j - base))); [|lia].
    destruct (Nat.ltb_spec (o + (j - base)) (o + len)); [|lia]. cbn [andb].
    replace (base + (o + (j - base) - o)) with j by lia. exact Eb. }
  destruct (H4 i' _ Hi1 Hi2 Hbit) as (b & Hb1 & Hb2).
  assert (Hb3 := Hb2). rewrite Hf in Hb3 by auto. apply andb_true_iff in Hb3 as [Hb3 _]. apply andb_true_iff in Hb3 as [Hb3 _].
  apply Nat.leb_le in Hb3. specialize (Hm (b - o) ltac:(lia)). rewrite Hd in Hm. replace (b - o + o) with b in Hm by lia. congruence.
Qed.
Lemma lowest_zero : forall R C M r f i data o base len, okm R C M -> lowest r R f i data -> data = 0%N ->
  (forall i b, r <= i -> i < R -> tb (f i) b = Nat.leb o b && Nat.ltb b (o + len) && bitat M i (base + (b - o))) ->
  forall i' j, r <= i' -> i' < R -> base <= j -> j < base + len -> bitat M i' j = false.
Proof.
  intros R C M r f i data o base len HM HL H0 Hf i' j Hi1 Hi2 Hj1 Hj2.
  destruct HL as [[_ Hz]|(? & _)]; [|contradiction].
  assert (E := Hf i' (o + (j - base)) Hi1 Hi2). rewrite Hz, tb_0 in E by auto.
  destruct (Nat.leb_spec o (o + (j - base))); [|lia]. destruct (Nat.ltb_spec (o + (j - base)) (o + len)); [|lia].
  cbn [andb] in E. replace (base + (o + (j - base) - o)) with j in E by lia. auto.
Qed.

Lemma wp_find_pivot : forall R C M r c (Q : option (nat * nat) -> Prop), okm R C M -> r <= R ->
  (forall x, pivot_at R C (bitat M) r c x -> Q x) -> wp (mzd_find_pivot M r c) Q.
Proof.
  intros R C M r c Q HM Hr HQ. unfold mzd_find_pivot.
  rewrite (proj1 (proj2 HM)), (okm_width R C M HM).
  assert (HR := proj1 HM).
  assert (W64 : forall i k, i < R -> (rw (nth i (mrows M) []) k < 2 ^ 64)%N).
  { intros i k Hi. change 64%N with (N.of_nat 64). apply tb_lt. intros b Hb. apply (wfr_tb C); [apply HM; exact Hi|lia]. }
  destruct (Nat.ltb_spec (C - c) 64) as [HC|HC].
  - destruct (Nat.ltb_spec c C) as [Hc|Hc].
    2:{ apply wp_ok, HQ. intros i' j _ _ Hj1 Hj2. lia. }
    set (f := fun i => match mzd_read_bits M i c (C - c) with Ok v => v | UB => 0%N end).
    assert (Hf : forall i, r <= i -> i < R -> wp (mzd_read_bits M i c (C - c)) (fun v => v = f i /\
        forall l, tb v l = Nat.ltb l (C - c) && bitat M i (c + l))).
    { intros i Hi1 Hi2. apply wp_conj.
      - destruct (wp_exists _ _ _ (wp_read_bits R C M i c (C - c) (fun _ => True) HM Hi2 ltac:(lia) ltac:(lia) ltac:(lia) (fun _ _ => I))) as (v & E & _).
        unfold f. rewrite E. reflexivity.
      - apply (wp_read_bits R C); auto; lia. }
    assert (Hfb : forall i b, r <= i -> i < R -> tb (f i) b = Nat.leb 0 b && Nat.ltb b (0 + (C - c)) && bitat M i (c + (b - 0))).
    { intros i b Hi1 Hi2. destruct (wp_exists _ _ _ (Hf i Hi1 Hi2)) as (v & _ & <- & Hv). rewrite Hv.
      rewrite Nat.sub_0_r, Nat.add_0_l. reflexivity. }
    apply wp_bind. apply (wp_pivot_scan R M r _ _ f); auto.
    + intros i Hi1 Hi2. apply (wp_mono _ _ _ _ (Hf i Hi1 Hi2)). intros v [E _]. exact E.
    + intros i Hi1 Hi2. change 64%N with (N.of_nat 64). apply tb_lt. intros b Hb. rewrite Hfb by auto.
      destruct (Nat.ltb_spec b (0 + (C - c))); [lia|]. rewrite andb_false_r. reflexivity.
    + discriminate.
    + intros i data HL. destruct (N.eqb_spec data 0) as [E|E].
      * apply wp_ok, HQ. intros i' j Hi1 Hi2 Hj1 Hj2. apply (lowest_zero R C M r f i data 0 c (C - c)); auto. lia.
      * apply (lowest_col R C M r c f i data 0 c (C - c)); auto; try lia.
  - assert (Hw : c / 64 < wwidth C) by (apply wwidth_lt; lia).
    apply wp_bind. apply wp_right; [lia|]. intros mb Hmb. apply wp_bind.
    set (fw := fun k i => rw (nth i (mrows M) []) k).
    assert (Hfw : forall k i, k < wwidth C -> i < R -> wp (wget M i k) (fun v => v = fw k i)).
    { intros k i Hk Hi. apply (wp_wget R C); auto. }
    assert (Hfwb : forall k i b, i < R -> tb (fw k i) b = Nat.ltb b 64 && bitat M i (64 * k + b)).
    { intros k i b Hi. unfold fw, bitat. destruct (Nat.ltb_spec b 64).
      - rewrite rowbit_rw by auto. reflexivity.
      - apply (wfr_tb C); [apply HM; exact Hi|lia]. }
    assert (Hf1 : forall i b, r <= i -> i < R -> tb (N.land (fw (c / 64) i) mb) b =
       Nat.leb (c mod 64) b && Nat.ltb b (c mod 64 + (64 - c mod 64)) && bitat M i (c + (b - c mod 64))).
    { intros i b Hi1 Hi2. rewrite tb_land, Hmb, Hfwb by auto. replace (c mod 64 + (64 - c mod 64)) with 64 by lia.
      destruct (Nat.leb_spec (c mod 64) b); cbn [andb]; [|apply andb_false_r].
      destruct (Nat.ltb_spec b 64); cbn [andb]; auto. rewrite andb_true_r. f_equal. lia. }
    apply (wp_pivot_scan R M r _ _ (fun i => N.land (fw (c / 64) i) mb)); auto.
    + intros i Hi1 Hi2. apply wp_bind. apply (wp_mono _ _ _ _ (Hfw (c / 64) i Hw Hi2)). intros v ->. apply wp_ok. reflexivity.
    + intros i Hi1 Hi2. change 64%N with (N.of_nat 64). apply tb_lt. intros b Hb. rewrite Hf1 by auto.
      destruct (Nat.ltb_spec b (c mod 64 + (64 - c mod 64))); [lia|]. rewrite andb_false_r. reflexivity.
    + intros v Hv. rewrite get_bit_tb in Hv. exists (c mod 64). split; auto. intros i e Hi1 Hi2 He.
      rewrite Hf1 by auto. destruct (Nat.leb_spec (c mod 64) e); [lia|reflexivity].
    + intros i data HL. destruct (N.eqb_spec data 0) as [E|E]; cbn [negb].
      2:{ apply wp_bind. apply wp_shr; [lia|]. intros d Hd.
          apply (lowest_col R C M r c (fun i => N.land (fw (c / 64) i) mb) i data (c mod 64) c (64 - c mod 64)); auto; try lia. }
      assert (Z1 : forall i' j, r <= i' -> i' < R -> c <= j -> j < 64 * (c / 64 + 1) -> bitat M i' j = false).
      { intros i' j Hi1 Hi2 Hj1 Hj2. apply (lowest_zero R C M r _ i data (c mod 64) c (64 - c mod 64) HM HL E Hf1); auto. lia. }
      clear i data HL E.
      assert (ZZ : wp (for_ret (c / 64 + 1) (wwidth C - 1) (fun wi _ =>
             ' (i, data) <- pivot_scan M r (fun i => wget M i wi) (fun d => get_bit d 0) ;;
             if N.eqb data 0 then Ok (inl tt)
             else c <- pivot_col data 64 (wi * 64) ;; Ok (inr (i, c))) tt)
          (fun x => match x with inr p => pivot_at R C (bitat M) r c (Some p)
                    | inl _ => forall i' j, r <= i' -> i' < R -> c <= j -> j < 64 * (wwidth C - 1) -> bitat M i' j = false end)).
      { destruct (Nat.le_gt_cases (c / 64 + 1) (wwidth C - 1)) as [Hle|Hgt].
        2:{ unfold for_ret. replace (wwidth C - 1 - (c / 64 + 1)) with 0 by lia. simpl.
            intros i' j Hi1 Hi2 Hj1 Hj2. apply Z1; auto. lia. }
        apply (wp_for_ret _ _ (fun t _ => forall i' j, r <= i' -> i' < R -> c <= j -> j < 64 * t -> bitat M i' j = false)); auto.
        intros wi [] Hwi1 Hwi2 HI. apply wp_bind.
        assert (Hf2 : forall i b, r <= i -> i < R -> tb (fw wi i) b = Nat.leb 0 b && Nat.ltb b (0 + 64) && bitat M i (64 * wi + (b - 0))).
        { intros i b Hi1 Hi2. rewrite Hfwb by auto. rewrite Nat.sub_0_r. reflexivity. }
        apply (wp_pivot_scan R M r _ _ (fw wi)); auto.
        - intros i Hi1 Hi2. apply Hfw; auto. lia.
        - intros i Hi1 Hi2. apply W64. exact Hi2.
        - intros v Hv. rewrite get_bit_tb in Hv. exists 0. split; auto. intros; lia.
        - intros i data HL. destruct (N.eqb_spec data 0) as [E|E].
          + apply wp_ok. intros i' j Hi1 Hi2 Hj1 Hj2. destruct (Nat.lt_ge_cases j (64 * wi)); [apply HI; auto|].
            apply (lowest_zero R C M r (fw wi) i data 0 (64 * wi) 64 HM HL E Hf2); auto; lia.
          + replace (wi * 64) with (64 * wi) by lia.
            assert (X := lowest_col R C M r c (fw wi) i data 0 (64 * wi) 64
              (fun x => match x with Some p => pivot_at R C (bitat M) r c (Some p) | None => False end)).
            assert (X' : wp (c0 <- pivot_col data 64 (64 * wi) ;; Ok (Some (i, c0)))
               (fun x => match x with Some p => pivot_at R C (bitat M) r c (Some p) | None => False end)).
            { assert (HB : 64 * wi + 64 <= C) by (unfold wwidth in *; lia).
              destruct HL as [[? _]|HL']; [contradiction|].
              apply (lowest_col R C M r c (fw wi) i data 0 (64 * wi) 64); auto.
              - right. exact HL'.
              - lia.
              - intros [p|] Hp; auto. destruct HL' as (_ & H1 & H2 & H3 & H4).
                destruct (nonzero_bit _ E) as (e & He). rewrite H3, Hf2 in He by auto.
                apply andb_true_iff in He as [He1 He2]. rewrite Hp in He2; [discriminate|auto|auto|lia|].
                apply andb_true_iff in He1 as [_ He1]. apply Nat.ltb_lt in He1. lia.
              }
            destruct (wp_exists _ _ _ X') as (x & Ex & Hx). clear X X'.
            destruct (pivot_col data 64 (64 * wi)) as [l|]; [|discriminate]. simpl in Ex. injection Ex as <-. simpl. exact Hx. }
      apply wp_bind. apply (wp_mono _ _ _ _ ZZ). clear ZZ Z1 Hf1. intros [[]|p] Hx; [|apply wp_ok, HQ; exact Hx].
      set (eo := if Nat.eqb (C mod 64) 0 then 64 else C mod 64).
      assert (Heo : 64 * (wwidth C - 1) + eo = C).
      { unfold eo, wwidth. destruct (Nat.eqb_spec (C mod 64) 0); lia. }
      assert (Heo1 : 1 <= eo) by (unfold eo; destruct (Nat.eqb_spec (C mod 64) 0); lia).
      assert (Heo2 : eo <= 64) by (unfold eo; destruct (Nat.eqb_spec (C mod 64) 0); lia).
      apply wp_bind.
      assert (Hf2 : forall i b, r <= i -> i < R -> tb (N.land (fw (wwidth C - 1) i) (left_bitmask (eo mod 64))) b =
           Nat.leb 0 b && Nat.ltb b (0 + eo) && bitat M i (64 * (wwidth C - 1) + (b - 0))).
      { intros i b Hi1 Hi2. rewrite tb_land, Hfwb, tb_left by (auto; lia). rewrite Nat.sub_0_r, Nat.add_0_l. cbn [Nat.leb andb].
        destruct (Nat.ltb_spec b 64), (Nat.ltb_spec b eo), (Nat.eqb_spec ((eo mod 64) mod 64) 0); cbn [andb];
          rewrite ?andb_true_r; try lia; try reflexivity.
        all: try (match goal with |- context [Nat.ltb ?x ?y] => destruct (Nat.ltb_spec x y) end; try lia; rewrite ?andb_true_r, ?andb_false_r; reflexivity). }
      apply (wp_pivot_scan R M r _ _ (fun i => N.land (fw (wwidth C - 1) i) (left_bitmask (eo mod 64)))); auto.
      * intros i Hi1 Hi2. apply wp_bind. apply (wp_mono _ _ _ _ (Hfw (wwidth C - 1) i ltac:(lia) Hi2)). intros v ->. apply wp_ok. reflexivity.
      * intros i Hi1 Hi2. change 64%N with (N.of_nat 64). apply tb_lt. intros b Hb. rewrite Hf2 by auto.
        destruct (Nat.ltb_spec b (0 + eo)); [lia|]. rewrite andb_false_r. reflexivity.
      * intros v Hv. rewrite get_bit_tb in Hv. exists 0. split; auto. intros; lia.
      * intros i data HL. replace ((wwidth C - 1) * 64) with (64 * (wwidth C - 1)) by lia. destruct (N.eqb_spec data 0) as [E|E].
        -- apply wp_ok, HQ. intros i' j Hi1 Hi2 Hj1 Hj2. destruct (Nat.lt_ge_cases j (64 * (wwidth C - 1))); [apply Hx; auto|].
           apply (lowest_zero R C M r _ i data 0 (64 * (wwidth C - 1)) eo HM HL E Hf2); auto; lia.
        -- apply (lowest_col R C M r c (fun i => N.land (fw (wwidth C - 1) i) (left_bitmask (eo mod 64))) i data 0 (64 * (wwidth C - 1)) eo); auto; try lia.
Qed.
