(** The Gray code tables of M4RI: codebook, mzd_make_table, mzd_process_rows and
    mzd_process_rows2 to 6. *)
From Coq Require Import Arith NArith ZArith List Bool Lia ZifyNat.
From Verif Require Import Base Spec LinAlg ModelM4ri SpecM4ri M4ri1 M4ri2.
Import ListNotations.

(** ** m4ri_gray_code *)

Lemma tb_gray : forall x l b, tb (gray_code x l) b =
  Nat.ltb b l && xorb (tb x b) (Nat.ltb (S b) l && tb x (S b)).
Proof.
  intros x l b. unfold gray_code.
  match goal with |- context [for_down ?h ?lo ?f ?s] =>
    assert (H : wp (for_down h lo f s) (fun '(lb, r) => forall b, tb r b =
      Nat.ltb b l && xorb (tb x b) (Nat.ltb (S b) l && tb x (S b)))) end.
  { apply (wp_for_down _ (fun i '(lb, r) =>
      (forall b, tb lb b = Nat.eqb b i && Nat.ltb i l && tb x i) /\
      (forall b, tb r b = Nat.leb i b && Nat.ltb b l && xorb (tb x b) (Nat.ltb (S b) l && tb x (S b))))); [lia| | |].
    - split; intros b'; rewrite tb_0.
      + rewrite Nat.ltb_irrefl, andb_false_r. reflexivity.
      + destruct (Nat.leb_spec l b'), (Nat.ltb_spec b' l); try lia; reflexivity.
    - intros i [lb r] _ Hi [H1 H2]. apply wp_ok. split.
      + intros b'. rewrite tb_land, tb_bit. destruct (Nat.eqb_spec b' i) as [->|]; cbn [andb].
        * destruct (Nat.ltb_spec i l); [|lia]. apply andb_true_r.
        * apply andb_false_r.
      + intros b'. rewrite tb_lor, H2, tb_lxor, tb_land, tb_bit.
        change 1%N with (N.of_nat 1) at 1. rewrite tb_shr, H1. replace (b' + 1) with (S b') by lia.
        destruct (Nat.eqb_spec b' i) as [->|Hne].
        * rewrite Nat.eqb_refl. cbn [andb].
          destruct (Nat.leb_spec (S i) i); [lia|]. destruct (Nat.leb_spec i i); [|lia].
          destruct (Nat.ltb_spec i l); [|lia]. cbn [andb orb]. rewrite andb_true_r.
          apply xorb_comm.
        * destruct (Nat.eqb_spec (S b') (S i)); [lia|]. cbn [andb]. rewrite andb_false_r. cbn [xorb].
          rewrite orb_false_r. destruct (Nat.leb_spec (S i) b'), (Nat.leb_spec i b'); try lia; reflexivity.
    - intros [lb r] [_ H] b'. rewrite H. reflexivity. }
  destruct (wp_exists _ _ _ H) as ([lb r] & E & Hr). rewrite E. apply Hr.
Qed.

Lemma tb_gray' : forall x l b, (x < 2 ^ N.of_nat l)%N -> tb (gray_code x l) b = xorb (tb x b) (tb x (S b)).
Proof.
  intros x l b Hx. rewrite tb_gray. assert (Hz := proj1 (tb_lt x l) Hx).
  destruct (Nat.ltb_spec b l), (Nat.ltb_spec (S b) l); cbn [andb]; try lia; auto.
  - rewrite (Hz (S b)) by lia. reflexivity.
  - rewrite !Hz by lia. reflexivity.
Qed.
Lemma gray_lt : forall x l, (gray_code x l < 2 ^ N.of_nat l)%N.
Proof. intros x l. apply tb_lt. intros b Hb. rewrite tb_gray. destruct (Nat.ltb_spec b l); [lia|reflexivity]. Qed.
Lemma gray_inj : forall x y l, (x < 2 ^ N.of_nat l)%N -> (y < 2 ^ N.of_nat l)%N ->
  gray_code x l = gray_code y l -> x = y.
Proof.
  intros x y l Hx Hy E. apply tb_inj.
  assert (H : forall d b, l <= b + d -> tb x b = tb y b).
  { induction d as [|d IH]; intros b Hb.
    - rewrite (proj1 (tb_lt x l) Hx), (proj1 (tb_lt y l) Hy) by lia. reflexivity.
    - assert (E' : tb (gray_code x l) b = tb (gray_code y l) b) by (rewrite E; reflexivity).
      rewrite !tb_gray' in E' by auto. rewrite (IH (S b)) in E' by lia.
      destruct (tb x b), (tb y b), (tb y (S b)); auto; discriminate. }
  intros b. apply (H l). lia.
Qed.

(** x and x - 1 differ in the bits up to the lowest one of x *)
Lemma pred_bits : forall d x m b, x = ((2 * m + 1) * 2 ^ N.of_nat d)%N ->
  xorb (tb x b) (tb (x - 1) b) = Nat.leb b d.
Proof.
  induction d as [|d IH]; intros x m b E.
  - replace x with (2 * m + 1)%N in * by (rewrite E, N.mul_1_r; reflexivity).
    replace (2 * m + 1 - 1)%N with (2 * m)%N by lia. unfold tb. destruct b as [|b].
    + change (N.of_nat 0) with 0%N. rewrite N.testbit_odd_0, N.testbit_even_0. reflexivity.
    + rewrite Nat2N.inj_succ, N.testbit_odd_succ, N.testbit_even_succ by lia. apply xorb_nilpotent.
  - set (y := ((2 * m + 1) * 2 ^ N.of_nat d)%N). assert (Hy : (0 < y)%N).
    { unfold y. apply N.mul_pos_pos; [lia|]. apply N.neq_0_lt_0, N.pow_nonzero. lia. }
    assert (Ex : x = (2 * y)%N). { rewrite E. unfold y. rewrite Nat2N.inj_succ, N.pow_succ_r by lia. lia. }
    replace (x - 1)%N with (2 * (y - 1) + 1)%N by lia. rewrite Ex. unfold tb. destruct b as [|b].
    + change (N.of_nat 0) with 0%N. rewrite N.testbit_odd_0, N.testbit_even_0. reflexivity.
    + rewrite Nat2N.inj_succ, N.testbit_odd_succ, N.testbit_even_succ by lia.
      change (N.testbit y (N.of_nat b)) with (tb y b). change (N.testbit (y - 1) (N.of_nat b)) with (tb (y - 1) b).
      rewrite (IH y m b eq_refl). reflexivity.
Qed.

Lemma gray_step : forall l x d, 1 <= x -> x < 2 ^ l -> Nat.divide (2 ^ d) x -> ~ Nat.divide (2 ^ S d) x ->
  forall b, xorb (tb (gray_code (N.of_nat x) l) b) (tb (gray_code (N.of_nat (x - 1)) l) b) = Nat.eqb b d.
Proof.
  intros l x d Hx1 Hx2 [m Hm] Hnd b.
  assert (P : N.of_nat (2 ^ l) = (2 ^ N.of_nat l)%N) by (rewrite Nat2N.inj_pow; reflexivity).
  rewrite !tb_gray' by lia. destruct (Nat.Even_or_Odd m) as [[h Hh]|[h Hh]].
  - exfalso. apply Hnd. exists h. rewrite Nat.pow_succ_r'. rewrite Hm, Hh. lia.
  - assert (E : N.of_nat x = ((2 * N.of_nat h + 1) * 2 ^ N.of_nat d)%N).
    { rewrite Hm, Hh, Nat2N.inj_mul, Nat2N.inj_pow. rewrite Nat2N.inj_add, Nat2N.inj_mul. reflexivity. }
    assert (H1 := pred_bits d _ _ b E). assert (H2 := pred_bits d _ _ (S b) E).
    replace (N.of_nat x - 1)%N with (N.of_nat (x - 1)) in * by lia.
    assert (H3 : Nat.eqb b d = xorb (Nat.leb b d) (Nat.leb (S b) d)).
    { destruct (Nat.eqb_spec b d), (Nat.leb_spec b d), (Nat.leb_spec (S b) d); try lia; reflexivity. }
    rewrite H3, <- H1, <- H2.
    destruct (tb (N.of_nat x) b), (tb (N.of_nat x) (S b)), (tb (N.of_nat (x - 1)) b), (tb (N.of_nat (x - 1)) (S b)); reflexivity.
Qed.

(** ** m4ri_build_code *)

Definition gord (l i : nat) : nat := N.to_nat (gray_code (N.of_nat i) l).

Lemma wp_codebook : forall l (Q : list nat * list nat -> Prop), 1 <= l -> l <= 16 ->
  (forall ord inc, length ord = 2 ^ l -> length inc = 2 ^ l ->
     (forall i, i < 2 ^ l -> nth i ord 0 = gord l i) ->
     (forall x, 1 <= x -> x < 2 ^ l -> let d := nth (x - 1) inc 0 in
        d < l /\ Nat.divide (2 ^ d) x /\ ~ Nat.divide (2 ^ S d) x) -> Q (ord, inc)) ->
  wp (codebook l) Q.
Proof.
  intros l Q H1 H2 HQ. unfold codebook.
  destruct (Nat.leb_spec 1 l), (Nat.leb_spec l 16); try lia. cbn [andb]. unfold build_code.
  apply wp_bind. apply (wp_for_up _ (fun t o => length o = 2 ^ l /\ forall i, i < t -> nth i o 0 = gord l i)); [lia| | |].
  - split; [apply repeat_length|intros; lia].
  - intros i o _ Hi [L E]. apply wp_aset; [lia|]. split; [rewrite length_upd; exact L|].
    intros k Hk. rewrite nth_upd by lia. destruct (Nat.eqb_spec k i) as [->|]; auto. apply E. lia.
  - intros ord [Lo Eo]. apply wp_bind.
    apply (wp_for_down _ (fun i inc => length inc = 2 ^ l /\ forall x, 1 <= x -> x <= 2 ^ l -> i <= l ->
       let d := nth (x - 1) inc 0 in
       d <= l - i /\ Nat.divide (2 ^ d) x /\ (d < l - i -> ~ Nat.divide (2 ^ S d) x))); [lia| | |].
    + split; [apply repeat_length|intros; lia].
    + intros i inc Hi1 Hi2 [L E]. set (D := l - i).
      assert (HP : 2 ^ l = 2 ^ i * 2 ^ D) by (rewrite <- Nat.pow_add_r; f_equal; lia).
      assert (HD : 2 ^ D <> 0) by (apply Nat.pow_nonzero; lia).
      apply (wp_for_up _ (fun j inc' => length inc' = 2 ^ l /\ forall x, 1 <= x -> x <= 2 ^ l ->
         ((exists m, m < j /\ x = m * 2 ^ D) -> nth (x - 1) inc' 0 = D) /\
         ((forall m, m < j -> x <> m * 2 ^ D) -> nth (x - 1) inc' 0 = nth (x - 1) inc 0))).
      * lia.
      * split; [exact L|]. intros x Hx1 Hx2. split; [|auto]. intros (m & Hm & Ex). assert (m = 0) by lia. subst m. lia.
      * intros j inc' Hj1 Hj2 [L' E']. assert (HB : j * 2 ^ D <= 2 ^ l) by (rewrite HP; apply Nat.mul_le_mono_r; lia).
        assert (1 <= j * 2 ^ D) by nia.
        apply wp_aset; [fold D; lia|]. fold D. split; [rewrite length_upd; exact L'|].
        intros x Hx1 Hx2. rewrite nth_upd by lia. destruct (Nat.eqb_spec (x - 1) (j * 2 ^ D - 1)) as [Ex|Ex].
        -- split; [auto|]. intros H'. exfalso. apply (H' j); lia.
        -- destruct (E' x Hx1 Hx2) as [F1 F2]. split.
           ++ intros (m & Hm & Em). apply F1. exists m. split; auto. destruct (Nat.eq_dec m j); [subst; lia|lia].
           ++ intros H'. apply F2. intros m Hm. apply H'. lia.
      * intros inc' [L' E']. split; [exact L'|]. intros x Hx1 Hx2 _. cbv zeta. destruct (E' x Hx1 Hx2) as [F1 F2].
        destruct (Nat.eq_dec (x mod 2 ^ D) 0) as [Hdiv|Hdiv].
        -- assert (Ex : x = x / 2 ^ D * 2 ^ D).
           { rewrite (Nat.div_mod x (2 ^ D)) at 1 by exact HD. lia. }
           rewrite F1. 2:{ exists (x / 2 ^ D). split; [|exact Ex].
             replace (2 ^ i) with (2 ^ l / 2 ^ D) by (rewrite HP; apply Nat.div_mul; exact HD).
             rewrite Nat.add_1_r. apply Nat.lt_succ_r. apply Nat.div_le_mono; auto. }
           refine (conj (le_n _) (conj _ _)); [exists (x / 2 ^ D); exact Ex|lia].
        -- rewrite F2. 2:{ intros m _ Em. apply Hdiv. rewrite Em. apply Nat.mod_mul. exact HD. }
           destruct (Nat.eq_dec i l) as [->|Hil].
           { exfalso. apply Hdiv. unfold D. rewrite Nat.sub_diag. reflexivity. }
           destruct (E x Hx1 Hx2 ltac:(lia)) as (G1 & G2 & G3). cbv zeta in G1, G2, G3.
           refine (conj _ (conj G2 _)); [fold D; lia|]. intros _ Hd.
           destruct (Nat.eq_dec (nth (x - 1) inc 0) (l - S i)) as [Ed|Ed]; [|apply G3; auto; lia].
           rewrite Ed in Hd. replace (S (l - S i)) with D in Hd by (unfold D; lia).
           destruct Hd as [m Em]. apply Hdiv. rewrite Em. apply Nat.mod_mul. exact HD.
    + intros inc [Li Ei]. apply wp_ok. apply HQ; auto.
      intros x Hx1 Hx2. cbv zeta. destruct (Ei x Hx1 ltac:(lia) ltac:(lia)) as (G1 & G2 & G3). cbv zeta in G1, G2, G3.
      refine (conj _ (conj G2 _)); [lia|]. destruct (Nat.eq_dec (nth (x - 1) inc 0) (l - 1)) as [Ed|Ed]; [|apply G3; lia].
      rewrite Ed. replace (S (l - 1)) with l by lia. intros [m Em]. destruct m; [lia|].
      assert (2 ^ l <= x) by (rewrite Em; simpl; lia). lia.
Qed.

Lemma gord_lt : forall l i, gord l i < 2 ^ l.
Proof.
  intros l i. unfold gord. assert (H := gray_lt (N.of_nat i) l).
  assert (P : N.of_nat (2 ^ l) = (2 ^ N.of_nat l)%N) by (rewrite Nat2N.inj_pow; reflexivity). lia.
Qed.
Lemma gord_inj : forall l i j, i < 2 ^ l -> j < 2 ^ l -> gord l i = gord l j -> i = j.
Proof.
  intros l i j Hi Hj E. assert (P : N.of_nat (2 ^ l) = (2 ^ N.of_nat l)%N) by (rewrite Nat2N.inj_pow; reflexivity).
  unfold gord in E. apply N2Nat.inj in E. apply gray_inj in E; lia.
Qed.
Lemma map_nodup : forall A B (f : A -> B) l, (forall a b, In a l -> In b l -> f a = f b -> a = b) ->
  NoDup l -> NoDup (map f l).
Proof.
  intros A B f l Hf Hl. induction Hl as [|a l Ha Hl IH]; simpl; constructor.
  - intros H. apply in_map_iff in H as (b & E & Hb). apply Ha. rewrite (Hf a b); simpl; auto.
  - apply IH. intros x y Hx Hy. apply Hf; simpl; auto.
Qed.
Lemma gord_surj : forall l id, id < 2 ^ l -> exists x, x < 2 ^ l /\ gord l x = id.
Proof.
  intros l id Hid.
  assert (H : incl (seq 0 (2 ^ l)) (map (gord l) (seq 0 (2 ^ l)))).
  { apply NoDup_length_incl.
    - apply map_nodup; [|apply seq_NoDup].
      intros a b Ha Hb. apply in_seq in Ha, Hb. apply gord_inj; lia.
    - rewrite map_length. lia.
    - intros a Ha. apply in_map_iff in Ha as (x & <- & _). apply in_seq. split; [lia|]. apply gord_lt. }
  assert (H' := H id ltac:(apply in_seq; lia)). apply in_map_iff in H' as (x & Ex & Hx). apply in_seq in Hx.
  exists x. split; [lia|exact Ex].
Qed.
Lemma gord_0 : forall l, gord l 0 = 0.
Proof.
  intros l. unfold gord. replace (gray_code (N.of_nat 0) l) with 0%N; auto.
  symmetry. apply tb_inj. intros b. rewrite tb_gray. change (N.of_nat 0) with 0%N. rewrite !tb_0, andb_false_r.
  rewrite andb_false_r. reflexivity.
Qed.

(** ** mzd_make_table *)

Definition tblok (C K : nat) (TL : list (list N) * list nat) : Prop :=
  length (fst TL) = 2 ^ K /\ length (snd TL) = 2 ^ K /\
  (forall i, i < 2 ^ K -> wfr C (nth i (fst TL) [])) /\ (forall j, rowbit (nth 0 (fst TL) []) j = false).
(** Row x of the table is the combination, selected by the bits of the x-th code word, of the rows g *)
Definition tblspec (g : fmat) (c k : nat) (TL : list (list N) * list nat) : Prop :=
  forall x, x < 2 ^ k -> nth (gord k x) (snd TL) 0 = x /\
    forall j, 64 * (c / 64) <= j -> rowbit (nth x (fst TL) []) j =
      Nat.leb c j && xsum k (fun l => tb (N.of_nat (gord k x)) l && g l j).

Lemma tb_gord : forall k x b, tb (N.of_nat (gord k x)) b = tb (gray_code (N.of_nat x) k) b.
Proof. intros. unfold gord. rewrite N2Nat.id. reflexivity. Qed.

#[local] Ltac Zify.zify_post_hook ::= Z.to_euclidean_division_equations.

Lemma wp_make_row : forall B (K : list N -> res B) C c m ti ti1 mb (Q : B -> Prop), c < C ->
  wfr C m -> wfr C ti -> wfr C ti1 ->
  (forall b, tb mb b = Nat.leb (c mod 64) b && Nat.ltb b 64 &&
      (negb (Nat.eqb (wwidth C - c / 64) 1) || Nat.ltb (64 * (wwidth C - 1) + b) C)) ->
  (forall t, wfr C t -> (forall j, 64 * (c / 64) <= j -> rowbit t j =
     Nat.leb c j && xorb (rowbit m j) (rowbit ti1 j)) -> wp (K t) Q) ->
  wp (x <- aget m (c / 64) ;; y <- aget ti1 (c / 64) ;;
      ti <- aset ti (c / 64) (N.land (N.lxor x y) mb) ;;
      ti <- row_loop (c / 64 + 1) (wwidth C - 1) (fun j _ =>
              x <- aget m j ;; y <- aget ti1 j ;; Ok (N.lxor x y)) ti ;;
      ti <- (if Nat.eqb (wwidth C - c / 64) 1 then Ok ti
       else x <- aget m (wwidth C - 1) ;; y <- aget ti1 (wwidth C - 1) ;;
            aset ti (wwidth C - 1) (N.land (N.lxor x y) (left_bitmask (C mod 64)))) ;;
      K ti) Q.
Proof.
  intros B K C c m ti ti1 mb Q Hc Wm Wt W1 Hmb HQ.
  assert (Hh := wwidth_lt C c Hc). assert (Lm := proj1 Wm). assert (Lt := proj1 Wt). assert (L1 := proj1 W1).
  apply wp_bind, (wp_aget _ _ _ 0%N); [lia|]. apply wp_bind, (wp_aget _ _ _ 0%N); [lia|].
  fold (rw m (c / 64)) (rw ti1 (c / 64)).
  apply wp_bind, wp_aset; [lia|]. apply wp_bind.
  apply (wp_row_loop _ _ _ (fun j _ => N.lxor (rw m j) (rw ti1 j))); [rewrite length_upd; lia| |].
  { intros j Hj1 Hj2. apply wp_bind, (wp_aget _ _ _ 0%N); [lia|]. apply wp_bind, (wp_aget _ _ _ 0%N); [lia|]. apply wp_ok. reflexivity. }
  intros t Lt' Et. rewrite length_upd in Lt'.
  assert (TM : forall b, tb (left_bitmask (C mod 64)) b = Nat.ltb b 64 && Nat.ltb (64 * (wwidth C - 1) + b) C).
  { intros b. apply (tb_high 0 C (mzd_init 0 C)); [apply init_ok|lia]. }
  assert (F : forall t', length t' = wwidth C ->
     (forall k, rw t' k = if Nat.ltb k (c / 64) then rw ti k
        else if Nat.eqb k (c / 64) then N.land (N.lxor (rw m k) (rw ti1 k)) mb
        else if Nat.ltb k (wwidth C - 1) then N.lxor (rw m k) (rw ti1 k)
        else if Nat.eqb k (wwidth C - 1) then N.land (N.lxor (rw m k) (rw ti1 k)) (left_bitmask (C mod 64))
        else rw ti k) -> wp (K t') Q).
  { intros t' L' E'. apply HQ.
    - split; [exact L'|]. intros k b. rewrite E'.
      assert (X : xorb (tb (rw m k) b) (tb (rw ti1 k) b) = true -> b < 64 /\ 64 * k + b < C).
      { destruct (tb (rw m k) b) eqn:E1; [intros _; apply Wm; exact E1|].
        destruct (tb (rw ti1 k) b) eqn:E2; [intros _; apply W1; exact E2|discriminate]. }
      destruct (Nat.ltb k (c / 64)); [apply Wt|]. destruct (Nat.eqb k (c / 64)).
      { rewrite tb_land, tb_lxor. intros H. apply andb_true_iff in H as [H _]. auto. }
      destruct (Nat.ltb k (wwidth C - 1)); [rewrite tb_lxor; auto|].
      destruct (Nat.eqb k (wwidth C - 1)); [|apply Wt].
      rewrite tb_land, tb_lxor. intros H. apply andb_true_iff in H as [H _]. auto.
    - intros j Hj. rewrite !rowbit_tb, E'. destruct (Nat.ltb_spec (j / 64) (c / 64)); [lia|].
      assert (Z : C <= j -> xorb (tb (rw m (j / 64)) (j mod 64)) (tb (rw ti1 (j / 64)) (j mod 64)) = false).
      { intros H'. rewrite !(wfr_tb C) by (auto; lia). reflexivity. }
      destruct (Nat.eqb_spec (j / 64) (c / 64)) as [Eh|Eh].
      { rewrite tb_land, tb_lxor, Hmb. destruct (Nat.lt_ge_cases j C) as [HjC|HjC].
        - replace (Nat.leb (c mod 64) (j mod 64)) with (Nat.leb c j)
            by (destruct (Nat.leb_spec (c mod 64) (j mod 64)), (Nat.leb_spec c j); try lia; reflexivity).
          destruct (Nat.leb c j); cbn [andb]; [|apply andb_false_r].
          destruct (Nat.ltb_spec (j mod 64) 64); [|lia]. cbn [andb].
          destruct (Nat.eqb_spec (wwidth C - c / 64) 1); cbn [negb orb]; [|apply andb_true_r].
          destruct (Nat.ltb_spec (64 * (wwidth C - 1) + j mod 64) C); [apply andb_true_r|lia].
        - rewrite Z by exact HjC. rewrite andb_false_r. reflexivity. }
      replace (Nat.leb c j) with true by (symmetry; apply Nat.leb_le; lia). cbn [andb].
      destruct (Nat.ltb_spec (j / 64) (wwidth C - 1)); [apply tb_lxor|].
      destruct (Nat.eqb_spec (j / 64) (wwidth C - 1)) as [Ew|Ew].
      + rewrite tb_land, tb_lxor, TM. destruct (Nat.lt_ge_cases j C).
        * destruct (Nat.ltb_spec (j mod 64) 64); [|lia]. destruct (Nat.ltb_spec (64 * (wwidth C - 1) + j mod 64) C); [apply andb_true_r|lia].
        * rewrite Z by auto. reflexivity.
      + assert (C <= j) by (unfold wwidth in *; lia). rewrite Z by auto. apply (wfr_tb C); auto. lia. }
  destruct (Nat.eqb_spec (wwidth C - c / 64) 1) as [E1|E1].
  - apply wp_bind, wp_ok, F; [lia|]. intros k. rewrite Et, rw_upd by lia.
    destruct (Nat.leb_spec (c / 64 + 1) k), (Nat.ltb_spec k (wwidth C - 1)), (Nat.ltb_spec k (c / 64)), (Nat.eqb_spec k (c / 64));
      subst; try lia; cbn [andb]; auto. destruct (Nat.eqb_spec k (wwidth C - 1)); [lia|reflexivity].
  - apply wp_bind, wp_bind, (wp_aget _ _ _ 0%N); [lia|]. apply wp_bind, (wp_aget _ _ _ 0%N); [lia|].
    fold (rw m (wwidth C - 1)) (rw ti1 (wwidth C - 1)). apply wp_aset; [lia|].
    apply F; [rewrite length_upd; lia|]. intros k. rewrite rw_upd, Et, rw_upd by lia.
    destruct (Nat.leb_spec (c / 64 + 1) k), (Nat.ltb_spec k (wwidth C - 1)), (Nat.ltb_spec k (c / 64)), (Nat.eqb_spec k (c / 64)),
      (Nat.eqb_spec k (wwidth C - 1)); subst; try lia; cbn [andb]; auto.
Qed.

Lemma wp_make_table : forall R C M r c k K TL (Q : list (list N) * list nat -> Prop),
  okm R C M -> c < C -> 1 <= k -> k <= 16 -> k <= K -> r + k <= R -> tblok C K TL ->
  (forall TL', tblok C K TL' -> tblspec (fun l j => bitat M (r + l) j) c k TL' -> Q TL') ->
  wp (mzd_make_table M r c k TL) Q.
Proof.
  intros R C M r c k K [T L] Q HM Hc Hk1 Hk2 HkK Hr (HT & HL & HW & H0) HQ. simpl in HT, HL, HW, H0.
  unfold mzd_make_table. rewrite (okm_width R C M HM), (proj1 (proj2 HM)), (proj1 HM).
  assert (HP : 2 ^ k <= 2 ^ K) by (apply Nat.pow_le_mono_r; lia).
  assert (HP0 : 1 <= 2 ^ k) by (apply Nat.neq_0_lt_0, Nat.pow_nonzero; lia).
  apply wp_bind. apply wp_right; [lia|]. intros pmb Hpmb. apply wp_bind. apply wp_codebook; auto.
  intros ord inc Lo Li Eo Ei. apply wp_bind, wp_aset; [lia|].
  apply (wp_for_up _ (fun i TL' => tblok C K TL' /\ forall x, x < i -> nth (gord k x) (snd TL') 0 = x /\
    forall j, 64 * (c / 64) <= j -> rowbit (nth x (fst TL') []) j =
      Nat.leb c j && xsum k (fun l => tb (N.of_nat (gord k x)) l && bitat M (r + l) j))).
  - exact HP0.
  - split.
    + refine (conj HT (conj _ (conj HW H0))). simpl. rewrite length_upd. exact HL.
    + intros x Hx. assert (x = 0) by lia. subst x. rewrite gord_0. split; [simpl; rewrite nth_upd by lia; reflexivity|].
      intros j _. simpl fst. rewrite H0. rewrite (xsum_false k); [rewrite andb_false_r; reflexivity|].
      intros l _. change (N.of_nat 0) with 0%N. rewrite tb_0. reflexivity.
  - clear T L HT HL HW H0. intros i [T L] Hi1 Hi2 ((HT & HL & HW & H0) & HS). simpl in HT, HL, HW, H0, HS.
    apply wp_bind, (wp_aget _ _ _ []); [lia|]. apply wp_bind, (wp_aget _ _ _ []); [lia|].
    apply wp_bind, (wp_aget _ _ _ 0); [lia|]. apply wp_bind, (wp_aget _ _ _ 0); [lia|].
    rewrite Eo by lia. assert (Hg := gord_lt k i). apply wp_bind, wp_aset; [lia|].
    destruct (Ei i Hi1 Hi2) as (D1 & D2 & D3). set (d := nth (i - 1) inc 0) in *.
    destruct (Nat.leb_spec R (r + d)); [lia|]. apply wp_bind, (wp_aget_row R C); auto.
    assert (TM : forall b, tb (left_bitmask (C mod 64)) b = Nat.ltb b 64 && Nat.ltb (64 * (wwidth C - 1) + b) C).
    { intros b. apply (tb_high 0 C (mzd_init 0 C)); [apply init_ok|lia]. }
    apply wp_make_row; auto.
    + apply HM. lia.
    + apply HW. lia.
    + apply HW. lia.
    + intros b. destruct (Nat.eqb (wwidth C - c / 64) 1); cbn [negb orb].
      * rewrite tb_land, Hpmb, TM. destruct (Nat.leb (c mod 64) b), (Nat.ltb b 64); reflexivity.
      * rewrite Hpmb. rewrite andb_true_r. reflexivity.
    + intros t Wt Et. apply wp_bind, wp_aset; [lia|]. apply wp_ok. split.
      * refine (conj _ (conj _ (conj _ _))); simpl.
        -- rewrite length_upd. exact HT.
        -- rewrite length_upd. exact HL.
        -- intros x Hx. rewrite nth_upd by lia. destruct (Nat.eqb_spec x i); auto.
        -- intros j. rewrite nth_upd by lia. destruct (Nat.eqb_spec 0 i); [lia|]. apply H0.
      * intros x Hx. simpl. rewrite !nth_upd by lia. destruct (Nat.eqb_spec x i) as [->|Hne].
        -- rewrite Nat.eqb_refl. split; auto. intros j Hj. rewrite Et by auto.
           rewrite (proj2 (HS (i - 1) ltac:(lia)) j Hj). destruct (Nat.leb c j); auto. cbn [andb].
           rewrite (xsum_ext k (fun l => tb (N.of_nat (gord k i)) l && _)
             (fun l => xorb (tb (N.of_nat (gord k (i - 1))) l && bitat M (r + l) j) (Nat.eqb l d && bitat M (r + l) j))).
           ++ rewrite xsum_xorb, (xsum_single k d (fun l => Nat.eqb l d && bitat M (r + l) j)); auto.
              ** rewrite Nat.eqb_refl. cbn [andb]. apply xorb_comm.
              ** intros l _ Hl. destruct (Nat.eqb_spec l d); [lia|reflexivity].
           ++ intros l _. rewrite !tb_gord. rewrite <- (gray_step k i d Hi1 Hi2 D2 D3 l).
              destruct (tb (gray_code (N.of_nat i) k) l), (tb (gray_code (N.of_nat (i - 1)) k) l), (bitat M (r + l) j); reflexivity.
        -- destruct (Nat.eqb_spec (gord k x) (gord k i)) as [E|E].
           ++ apply gord_inj in E; lia.
           ++ apply HS. lia.
  - intros TL' [H1 H2]. apply HQ; auto.
Qed.
