(** mzd_transpose, ModelM4ri2.v *)
From Coq Require Import Arith NArith ZArith List Bool Lia ZifyNat.
From Verif Require Import Base Spec ModelM4ri SpecM4ri M4ri1 ModelM4ri2 M4ri9 M4ri10 M4ri11 M4ri12 M4ri13.
Import ListNotations.
Local Open Scope nat_scope.
#[local] Ltac Zify.zify_post_hook ::= Z.to_euclidean_division_equations.

Lemma load_col_ok : forall R C A w n r (Q : list N -> Prop), okm R C A -> r + n <= R -> w < wwidth C ->
  (forall ws, length ws = n -> (forall i b, tb (rw ws i) b =
     Nat.ltb i n && Nat.ltb b 64 && bitat A (r + i) (64 * w + b)) -> Q ws) -> wp (load_col A r w n) Q.
Proof.
  intros R C A w n. induction n as [|n IH]; intros r Q HA Hr Hw HQ.
  - apply HQ; [reflexivity|]. intros i b. rewrite rw_over by (cbn [length]; lia). apply tb_0.
  - cbn [load_col]. apply wp_bind, (wp_wget R C); [exact HA|lia|exact Hw|].
    apply wp_bind, IH; [exact HA|lia|exact Hw|]. intros ws HL H. apply wp_ok, HQ; [cbn [length]; lia|].
    intros i b. destruct i as [|i].
    + unfold rw at 1. cbn [nth]. rewrite Nat.add_0_r.
      replace (Nat.ltb 0 (S n)) with true by reflexivity. cbn [andb].
      destruct (Nat.ltb_spec b 64).
      * symmetry. apply rowbit_rw. assumption.
      * apply (wfr_tb C); [apply HA; lia|]. intros. lia.
    + change (rw (rw (nth r (mrows A) []) w :: ws) (S i)) with (rw ws i). rewrite H.
      replace (r + S i) with (S r + i) by lia. reflexivity.
Qed.

Lemma store_col_ok : forall R C w ws r D (Q : mzd -> Prop), okm R C D -> r + length ws <= R -> w < wwidth C ->
  (forall i b, tb (rw ws i) b = true -> b < 64 /\ 64 * w + b < C) ->
  (forall D', okm R C D' -> (forall a j, bitat D' a j =
     if Nat.leb r a && Nat.ltb a (r + length ws) && Nat.eqb (j / 64) w
     then tb (rw ws (a - r)) (j mod 64) else bitat D a j) -> Q D') -> wp (store_col D r w ws) Q.
Proof.
  intros R C w ws. induction ws as [|x ws IH]; intros r D Q HD Hr Hw Hb HQ.
  - apply HQ; [exact HD|]. intros a j. cbn [length].
    destruct (Nat.leb_spec r a), (Nat.ltb_spec a (r + 0)); try lia; reflexivity.
  - cbn [store_col length] in *. apply wp_bind, (wp_wset R C); [exact HD|lia|exact Hw|apply (Hb 0)|].
    intros D1 HD1 H1. apply IH; [exact HD1|lia|exact Hw|intros i; apply (Hb (S i))|].
    intros D2 HD2 H2. apply HQ; [exact HD2|]. intros a j. rewrite H2, H1.
    destruct (Nat.eqb_spec a r) as [->|Ne].
    + destruct (Nat.leb_spec (S r) r), (Nat.leb_spec r r), (Nat.ltb_spec r (r + S (length ws))); try lia.
      rewrite Nat.sub_diag. reflexivity.
    + destruct (Nat.leb_spec (S r) a), (Nat.leb_spec r a), (Nat.ltb_spec a (S r + length ws)), (Nat.ltb_spec a (r + S (length ws))); try lia; try reflexivity.
      replace (a - r) with (S (a - S r)) by lia. reflexivity.
Qed.

Section Blocks.
Variables (R C : nat) (A : mzd).
Hypothesis HA : okm R C A.

(** Block (a, b) of A is in D *)
Definition goodb (a b : nat) (D : mzd) : Prop :=
  forall i c, 64 * a <= i -> i < 64 * a + 64 -> i < R -> 64 * b <= c -> c < 64 * b + 64 -> c < C ->
    bitat D c i = bitat A i c.

Lemma block_ok : forall a b n m f D (Q : mzd -> Prop), okm C R D -> 64 * a < R -> 64 * b < C ->
  n = Nat.min 64 (R - 64 * a) -> m = Nat.min 64 (C - 64 * b) ->
  (forall ws, wm n m ws -> forall Q' : list N -> Prop, (forall l, trans n m ws l -> Q' l) -> wp (f ws) Q') ->
  (forall D', okm C R D' -> goodb a b D' -> (forall a' b', goodb a' b' D -> goodb a' b' D') -> Q D') ->
  wp (t <- load_col A (64 * a) b n ;; t <- f t ;; store_col D (64 * b) a t) Q.
Proof.
  intros a b n m f D Q HD Ha Hb Hn Hm Hf HQ.
  assert (Hwb : b < wwidth C). { pose proof (wwidth_lt C (64 * b) Hb). replace (64 * b / 64) with b in * by lia. assumption. }
  assert (Hwa : a < wwidth R). { pose proof (wwidth_lt R (64 * a) Ha). replace (64 * a / 64) with a in * by lia. assumption. }
  apply wp_bind, (load_col_ok R C); [exact HA|lia|exact Hwb|]. intros ws HL Hws.
  apply wp_bind, Hf.
  - split; [exact HL|]. intros i c Hc. rewrite Hws. destruct (Nat.ltb_spec i n), (Nat.ltb_spec c 64); try reflexivity.
    cbn [andb]. apply (bitat_zero R C); [exact HA|lia|lia].
  - intros l [HLl Hl]. apply (store_col_ok C R); [exact HD|lia|exact Hwa| |].
    + intros i c H. destruct (Nat.lt_ge_cases i m) as [Hi|Hi]; [|rewrite rw_over, tb_0 in H by lia; discriminate].
      rewrite Hl in H by exact Hi. apply andb_prop in H. destruct H as [H _]. apply Nat.ltb_lt in H. lia.
    + intros D' HD' H'. apply HQ; [exact HD'| |].
      * intros i c Hi1 Hi2 Hi3 Hc1 Hc2 Hc3. rewrite H', HLl.
        destruct (Nat.leb_spec (64 * b) c), (Nat.ltb_spec c (64 * b + m)), (Nat.eqb_spec (i / 64) a); try lia.
        cbn [andb]. rewrite Hl, Hws by lia. destruct (Nat.ltb_spec (i mod 64) n), (Nat.ltb_spec (c - 64 * b) 64); try lia.
        cbn [andb]. f_equal; lia.
      * intros a' b' Hg i c Hi1 Hi2 Hi3 Hc1 Hc2 Hc3. rewrite H', HLl.
        destruct (Nat.leb_spec (64 * b) c), (Nat.ltb_spec c (64 * b + m)), (Nat.eqb_spec (i / 64) a); cbn [andb]; try (apply Hg; assumption).
        rewrite Hl, Hws by lia. destruct (Nat.ltb_spec (i mod 64) n), (Nat.ltb_spec (c - 64 * b) 64); try lia.
        cbn [andb]. f_equal; lia.
Qed.

Lemma trans_block_ok : forall a b D (Q : mzd -> Prop), okm C R D -> 64 * a + 64 <= R -> 64 * b + 64 <= C ->
  (forall D', okm C R D' -> goodb a b D' -> (forall a' b', goodb a' b' D -> goodb a' b' D') -> Q D') ->
  wp (trans_block D A (64 * b, a, 64 * a, b)) Q.
Proof.
  intros a b D Q HD Ha Hb HQ. unfold trans_block.
  apply (block_ok a b 64 64 transpose_64); auto; try lia.
  intros ws [HL HW] Q' HQ'. apply transpose_64_ok; [exact HL|intros k p Hp; apply HW; exact Hp|].
  intros t HLt HWt Ht. apply HQ'. split; [exact HLt|]. intros c i Hc.
  destruct (Nat.ltb_spec i 64); [apply Ht; assumption|apply HWt; assumption].
Qed.

(** The blocks of group a below j, all those of the groups before, except the delayed one *)
Definition inv (js a j : nat) (st : mzd * option (nat * nat * nat * nat)) : Prop :=
  let '(D, delayed) := st in
  okm C R D /\
  (match delayed with
   | None => Nat.even (a * (C / 64) + j + js) = true
   | Some p => Nat.even (a * (C / 64) + j + js) = false /\
               exists ad bd, p = (64 * bd, ad, 64 * ad, bd) /\ 64 * ad + 64 <= R /\ 64 * bd + 64 <= C
   end) /\
  (forall a' b', (a' < a /\ b' <= C / 64) \/ (a' = a /\ b' < j) ->
     goodb a' b' D \/ delayed = Some (64 * b', a', 64 * a', b')).

Lemma group_ok : forall js a st, a < R / 64 -> (if Nat.eqb a 0 then js else 0) <= C / 64 ->
  inv js a (if Nat.eqb a 0 then js else 0) st -> wp (trans_group A js C a st) (inv js (S a) 0).
Proof.
  intros js a st Ha Hj0 Hst. unfold trans_group. set (j0 := if Nat.eqb a 0 then js else 0) in *. cbv zeta.
  apply wp_bind, (wp_for_up _ (inv js a)); [exact Hj0|exact Hst| |].
  - intros j [D [p|]] _ Hj [HD [Hdel Hg]].
    + destruct Hdel as [Hev [ad [bd [-> [Had Hbd]]]]].
      apply wp_bind, trans_block_ok; auto. intros D1 HD1 Hg1 Hk1.
      apply wp_bind, trans_block_ok; [exact HD1|lia|lia|]. intros D2 HD2 Hg2 Hk2.
      apply wp_ok. split; [exact HD2|]. split.
      * replace (a * (C / 64) + S j + js) with (S (a * (C / 64) + j + js)) by lia. rewrite even_S_iff, Hev. reflexivity.
      * intros a' b' Hab. left.
        assert (Hcase : (a' = a /\ b' = j) \/ ((a' < a /\ b' <= C / 64) \/ (a' = a /\ b' < j))) by lia.
        destruct Hcase as [[-> ->]|Hcase]; [exact Hg2|].
        destruct (Hg _ _ Hcase) as [H|H]; [apply Hk2, Hk1, H|].
        injection H as E1 E2 E3 E4. subst ad bd. apply Hk2, Hg1.
    + apply wp_ok. split; [exact HD|]. split; [split|].
      * replace (a * (C / 64) + S j + js) with (S (a * (C / 64) + j + js)) by lia. rewrite even_S_iff, Hdel. reflexivity.
      * exists a, j. split; [reflexivity|]. lia.
      * intros a' b' Hab.
        assert (Hcase : (a' = a /\ b' = j) \/ ((a' < a /\ b' <= C / 64) \/ (a' = a /\ b' < j))) by lia.
        destruct Hcase as [[-> ->]|Hcase]; [right; reflexivity|].
        destruct (Hg _ _ Hcase) as [H|H]; [left; exact H|discriminate].
  - intros [D delayed] [HD [Hdel Hg]].
    assert (Hdel' : match delayed with
      | None => Nat.even (S a * (C / 64) + 0 + js) = true
      | Some p => Nat.even (S a * (C / 64) + 0 + js) = false /\
                 exists ad bd, p = (64 * bd, ad, 64 * ad, bd) /\ 64 * ad + 64 <= R /\ 64 * bd + 64 <= C end).
    { replace (S a * (C / 64) + 0 + js) with (a * (C / 64) + C / 64 + js) by lia. exact Hdel. }
    destruct (Nat.eqb_spec (C mod 64) 0) as [E|E].
    + apply wp_ok. split; [exact HD|]. split; [exact Hdel'|]. intros a' b' Hab.
      assert (Hcase : (a' = a /\ b' = C / 64) \/ ((a' < a /\ b' <= C / 64) \/ (a' = a /\ b' < C / 64))) by lia.
      destruct Hcase as [[-> ->]|Hcase]; [|apply Hg; exact Hcase].
      left. intros i c _ _ _ Hc1 _ Hc2. lia.
    + pose proof (block_ok a (C / 64) 64 (C mod 64) (transpose_64xlt64 (C mod 64)) D
        (fun D' => okm C R D' /\ goodb a (C / 64) D' /\ forall a' b', goodb a' b' D -> goodb a' b' D')) as HB.
      assert (HB' : wp (t <- load_col A (64 * a) (C / 64) 64;; t0 <- transpose_64xlt64 (C mod 64) t;; store_col D (64 * (C / 64)) a t0)
        (fun D' => okm C R D' /\ goodb a (C / 64) D' /\ forall a' b', goodb a' b' D -> goodb a' b' D')).
      { apply HB; auto; try lia. intros ws Hws Q' HQ'. apply t64xlt64_ok; auto; lia. }
      clear HB. apply wp_exists in HB'. destruct HB' as [D' [HE [HD' [Hg' Hk']]]].
      destruct (load_col A (64 * a) (C / 64) 64) as [t|]; [|discriminate]. cbn [bind] in HE |- *.
      destruct (transpose_64xlt64 (C mod 64) t) as [t0|]; [|discriminate]. cbn [bind] in HE |- *. rewrite HE. cbn [bind].
      apply wp_ok. split; [exact HD'|]. split; [exact Hdel'|]. intros a' b' Hab.
      assert (Hcase : (a' = a /\ b' = C / 64) \/ ((a' < a /\ b' <= C / 64) \/ (a' = a /\ b' < C / 64))) by lia.
      destruct Hcase as [[-> ->]|Hcase]; [left; exact Hg'|].
      destruct (Hg _ _ Hcase) as [H|H]; [left; apply Hk', H|right; exact H].
Qed.

Lemma rows64_ok : forall D (Q : mzd -> Prop), okm C R D -> 64 <= R ->
  (forall D', okm C R D' -> (forall a b, a < R / 64 -> b <= C / 64 -> goodb a b D') -> Q D') ->
  wp (trans_rows64 D A R C) Q.
Proof.
  intros D Q HD HR HQ. unfold trans_rows64. cbv zeta.
  set (js := if Nat.odd (R / 64) && Nat.odd (C / 64) then 1 else 0).
  assert (Hjs : js <= C / 64).
  { unfold js. destruct (Nat.odd (R / 64)); [|cbn [andb]; lia]. destruct (Nat.odd (C / 64)) eqn:E; cbn [andb]; [|lia].
    apply Nat.odd_spec in E. destruct E as [k E]. lia. }
  assert (Hjs1 : js <= 1) by (unfold js; destruct (Nat.odd (R / 64) && Nat.odd (C / 64)); lia).
  assert (Hev : forall st, inv js (R / 64) 0 st -> snd st = None).
  { intros [D0 [p|]] [_ [H _]]; [|reflexivity]. destruct H as [H _]. exfalso.
    assert (Nat.even (R / 64 * (C / 64) + 0 + js) = true); [|congruence].
    rewrite Nat.add_0_r, Nat.even_add, Nat.even_mul. unfold js. rewrite !odd_even.
    destruct (Nat.even (R / 64)), (Nat.even (C / 64)); reflexivity. }
  apply wp_bind. apply (wp_mono _ _ (fun D0 => inv js 0 js (D0, None))).
  - destruct (Nat.eqb_spec js 1) as [E|E].
    + apply (trans_block_ok 0 0); [exact HD|lia|lia|]. intros D1 HD1 Hg1 _.
      split; [exact HD1|]. split; [rewrite E; reflexivity|]. intros a' b' Hab. left.
      assert (a' = 0) by lia. assert (b' = 0) by lia. subst a' b'. exact Hg1.
    + assert (E0 : js = 0) by lia. rewrite E0. apply wp_ok. split; [exact HD|]. split; [reflexivity|]. intros a' b' Hab. lia.
  - intros D1 Hinv. destruct (Nat.eqb_spec js 1) as [E|E]; cbn [andb].
    + destruct (Nat.eqb_spec R 64) as [ER|ER]; cbn [andb]; [destruct (Nat.eqb_spec C 64) as [EC|EC]; cbn [andb]|].
      * apply wp_ok. destruct Hinv as [HD1 [_ Hg]]. apply HQ; [exact HD1|]. intros a b Ha Hb.
        destruct (Nat.lt_ge_cases b 1) as [Hb1|Hb1].
        -- destruct (Hg a b ltac:(lia)) as [H|H]; [exact H|discriminate].
        -- intros i c _ _ _ Hc1 _ Hc2. lia.
      * apply wp_bind, (wp_for_up _ (fun a st => inv js a (if Nat.eqb a 0 then js else 0) st)); [lia|exact Hinv| |].
        -- intros a st _ Ha Hst. apply group_ok; [exact Ha|destruct (Nat.eqb a 0); lia|exact Hst].
        -- intros st Hst. destruct (Nat.eqb_spec (R / 64) 0); [lia|].
           pose proof (Hev _ Hst) as HN. destruct st as [D2 del]. cbn [snd] in HN. subst del.
           destruct Hst as [HD2 [_ Hg]]. apply wp_ok, HQ; [exact HD2|]. intros a b Ha Hb.
           destruct (Hg a b ltac:(lia)) as [H|H]; [exact H|discriminate].
      * apply wp_bind, (wp_for_up _ (fun a st => inv js a (if Nat.eqb a 0 then js else 0) st)); [lia|exact Hinv| |].
        -- intros a st _ Ha Hst. apply group_ok; [exact Ha|destruct (Nat.eqb a 0); lia|exact Hst].
        -- intros st Hst. destruct (Nat.eqb_spec (R / 64) 0); [lia|].
           pose proof (Hev _ Hst) as HN. destruct st as [D2 del]. cbn [snd] in HN. subst del.
           destruct Hst as [HD2 [_ Hg]]. apply wp_ok, HQ; [exact HD2|]. intros a b Ha Hb.
           destruct (Hg a b ltac:(lia)) as [H|H]; [exact H|discriminate].
    + apply wp_bind, (wp_for_up _ (fun a st => inv js a (if Nat.eqb a 0 then js else 0) st)); [lia|exact Hinv| |].
      * intros a st _ Ha Hst. apply group_ok; [exact Ha|destruct (Nat.eqb a 0); lia|exact Hst].
      * intros st Hst. destruct (Nat.eqb_spec (R / 64) 0); [lia|].
        pose proof (Hev _ Hst) as HN. destruct st as [D2 del]. cbn [snd] in HN. subst del.
        destruct Hst as [HD2 [_ Hg]]. apply wp_ok, HQ; [exact HD2|]. intros a b Ha Hb.
        destruct (Hg a b ltac:(lia)) as [H|H]; [exact H|discriminate].
Qed.

Lemma good_all : forall D, (forall a b, a <= R / 64 -> b <= C / 64 -> goodb a b D) ->
  forall i c, i < R -> c < C -> bitat D c i = bitat A i c.
Proof. intros D H i c Hi Hc. apply (H (i / 64) (c / 64)); lia. Qed.

Lemma transpose_main_ok : forall junk D (Q : mzd -> Prop), okm C R D -> 1 <= C ->
  (forall b, length (junk b) = 64 /\ w64 (junk b)) ->
  N.leb 6 (blockrows_log C) = true -> N.leb 6 (blockrows_log R) = true ->
  one_block R C = true -> one_block C R = true ->
  (forall D', okm C R D' -> (forall i c, i < R -> c < C -> bitat D' c i = bitat A i c) -> Q D') ->
  wp (mzd_transpose_main junk D A) Q.
Proof.
  intros junk D Q HD HC Hj H1 H2 H3 H4 HQ. unfold mzd_transpose_main. cbv zeta.
  destruct HA as [HrA [HcA _]]. rewrite HrA, HcA, H1, H2, H3, H4. cbn [andb negb].
  apply wp_bind. apply (wp_mono _ _ (fun D1 => okm C R D1 /\ forall a b, a < R / 64 -> b <= C / 64 -> goodb a b D1)).
  - destruct (Nat.leb_spec 64 R).
    + apply rows64_ok; auto.
    + apply wp_ok. split; [exact HD|]. intros a b Ha. lia.
  - intros D1 [HD1 Hg1]. destruct (Nat.eqb_spec (R mod 64) 0) as [ER|ER].
    + apply wp_ok, HQ; [exact HD1|]. intros i c Hi Hc. apply (Hg1 (i / 64) (c / 64)); lia.
    + apply wp_bind, (wp_for_up _ (fun b D => okm C R D /\ (forall a b', a < R / 64 -> b' <= C / 64 -> goodb a b' D) /\
        forall b', b' < b -> goodb (R / 64) b' D)); [lia| | |].
      * split; [exact HD1|]. split; [exact Hg1|]. intros b' Hb'. lia.
      * intros b D2 _ Hb [HD2 [Hg2 Hg2']]. apply (block_ok (R / 64) b (R mod 64) 64 (transpose_lt64x64 (junk b) (R mod 64))); auto; try lia.
        -- intros ws Hws Q' HQ'. destruct (Hj b). apply lt64x64_ok; auto; lia.
        -- intros D3 HD3 Hg3 Hk3. split; [exact HD3|]. split; [intros a b' Ha Hb'; apply Hk3, Hg2; assumption|].
           intros b' Hb'. destruct (Nat.eq_dec b' b) as [->|]; [exact Hg3|]. apply Hk3, Hg2'. lia.
      * intros D2 [HD2 [Hg2 Hg2']]. destruct (Nat.eqb_spec (C mod 64) 0) as [EC|EC].
        -- apply wp_ok, HQ; [exact HD2|]. apply good_all. intros a b Ha Hb.
           destruct (Nat.eq_dec a (R / 64)) as [->|]; [|apply Hg2; lia].
           destruct (Nat.eq_dec b (C / 64)) as [->|]; [|apply Hg2'; lia].
           intros i c _ _ _ Hc1 _ Hc2. lia.
        -- apply (block_ok (R / 64) (C / 64) (R mod 64) (C mod 64) (trans_corner (R mod 64) (C mod 64))); auto; try lia.
           ++ intros ws Hws Q' HQ'. apply corner_ok; auto; lia.
           ++ intros D3 HD3 Hg3 Hk3. apply HQ; [exact HD3|]. apply good_all. intros a b Ha Hb.
              destruct (Nat.eq_dec a (R / 64)) as [->|]; [|apply Hk3, Hg2; lia].
              destruct (Nat.eq_dec b (C / 64)) as [->|]; [exact Hg3|]. apply Hk3, Hg2'. lia.
Qed.
End Blocks.

(** Rows times words of a row, with the padding, below 2^26 *)
Definition fits (r c : nat) : Prop := (N.max (N.of_nat r) 64 * (N.of_nat c + 127) <= 2 ^ 32)%N.

Lemma fits_ok : forall r c, 0 < c -> fits r c -> N.leb 6 (blockrows_log c) = true /\ one_block r c = true.
Proof.
  intros r c Hc H. unfold fits in H. unfold one_block.
  assert (Hrs : 0 < rowstride c /\ 64 * rowstride c <= c + 127).
  { unfold rowstride, wwidth. destruct (Nat.even _); lia. }
  destruct Hrs as [Hrs0 Hrs].
  assert (Hy : (N.max (N.of_nat r) 64 <= 2 ^ blockrows_log c)%N).
  { unfold blockrows_log. set (s := N.of_nat (rowstride c)) in *. assert (Hs : (0 < s /\ 64 * s <= N.of_nat c + 127)%N) by lia.
    set (x := (2 ^ 27 / s)%N). set (k := N.max (N.of_nat r) 64) in *.
    assert (Hks : (k * s <= 2 ^ 26)%N).
    { change (2 ^ 32)%N with (64 * 2 ^ 26)%N in H. nia. }
    assert (Hx : (2 ^ 27 < s * (x + 1))%N).
    { pose proof (N.mul_succ_div_gt (2 ^ 27) s ltac:(lia)) as Hm. fold x in Hm. rewrite N.add_1_r. exact Hm. }
    assert (Hx0 : (0 < x)%N).
    { destruct (N.eq_dec x 0) as [E|]; [|lia]. rewrite E in Hx. exfalso.
      assert (s <= 2 ^ 26)%N by (assert (64 <= k)%N by (unfold k; lia); nia).
      assert (E2 : (2 ^ 27 = 2 * 2 ^ 26)%N) by reflexivity. nia. }
    pose proof (N.log2_spec x Hx0) as [_ Hl]. rewrite N.pow_succ_r' in Hl.
    set (y := (2 ^ N.log2 x)%N) in *.
    assert (E2 : (2 ^ 27 = 2 * 2 ^ 26)%N) by reflexivity. rewrite E2 in Hx. nia. }
  split.
  - apply N.leb_le. apply (N.pow_le_mono_r_iff 2); [lia|]. change (2 ^ 6)%N with 64%N. lia.
  - apply N.leb_le. lia.
Qed.

Lemma wp_transpose : forall R C junk A (Q : mzd -> Prop), okm R C A -> 1 <= R -> 1 <= C -> fits R C -> fits C R ->
  (forall b, length (junk b) = 64 /\ w64 (junk b)) ->
  (forall D', okm C R D' -> (forall i c, i < R -> c < C -> bitat D' c i = bitat A i c) -> Q D') ->
  wp (mzd_transpose junk A) Q.
Proof.
  intros R C junk A Q HA HR HC HF1 HF2 Hj HQ. unfold mzd_transpose. pose proof HA as [HrA [HcA _]].
  rewrite HrA, HcA. destruct (Nat.eqb_spec R 0), (Nat.eqb_spec C 0); try lia. cbn [orb].
  destruct (fits_ok R C ltac:(lia) HF1). destruct (fits_ok C R ltac:(lia) HF2).
  apply (transpose_main_ok R C A HA); auto. apply (init_ok C R).
Qed.
