(** Triangular systems: the tables, the recursion *)
From Coq Require Import Arith NArith ZArith List Bool Lia ZifyNat.
From Verif Require Import Base Spec LinAlg ModelM4ri SpecM4ri M4ri1 M4riD M4ri2 M4ri3 M4ri4 M4ri5 ModelM4ri2 M4ri9 M4ri11 M4ri14 M4ri16 M4ri17
  ModelStrassen Strassen1 Strassen3 Strassen4 ModelTri SpecTri Tri1.
Import ListNotations.
Local Open Scope nat_scope.
#[local] Ltac Zify.zify_post_hook ::= Z.to_euclidean_division_equations.

Ltac bcase := repeat match goal with
  | |- context [if Nat.ltb ?a ?b then _ else _] => destruct (Nat.ltb_spec a b)
  | |- context [if Nat.leb ?a ?b then _ else _] => destruct (Nat.leb_spec a b)
  | |- context [if Nat.eqb ?a ?b then _ else _] => destruct (Nat.eqb_spec a b)
  | |- context [Nat.ltb ?a ?b] => destruct (Nat.ltb_spec a b)
  | |- context [Nat.leb ?a ?b] => destruct (Nat.leb_spec a b)
  | |- context [Nat.eqb ?a ?b] => destruct (Nat.eqb_spec a b)
  end; cbn [andb orb]; try lia; try reflexivity.

Lemma bits_lt : forall k v, (forall b, tb v b = true -> b < k) -> N.to_nat v < 2 ^ k.
Proof.
  intros k v Hv. assert (P : N.of_nat (2 ^ k) = (2 ^ N.of_nat k)%N) by (rewrite Nat2N.inj_pow; reflexivity).
  enough (v < 2 ^ N.of_nat k)%N by lia. apply tb_lt. intros b Hb. destruct (tb v b) eqn:E; [apply Hv in E; lia|reflexivity].
Qed.

Section Sys.
Variables (R C : nat) (T : mzd) (B0 : fmat).
Hypothesis HT : okd R R T.
Hypothesis HC : 1 <= C.

Lemma applied_loop : forall body M col n lo hi (Q : mzd -> Prop), okm R C M -> lo <= hi -> hi <= R ->
  (forall j M1, lo <= j -> j < hi -> okm R C M1 -> wp (body j M1) (fun M2 => okm R C M2 /\
     forall x t, bitat M2 x t = if Nat.eqb x j then xorb (bitat M1 j t) (xsum n (fun l => bitat T j (col + l) && bitat M (col + l) t)) else bitat M1 x t)) ->
  (forall M', applied R C T col n lo hi M M' -> Q M') -> wp (for_up lo hi body M) Q.
Proof.
  intros body M col n lo hi Q HM Hlo Hhi HB HQ.
  apply (wp_for_up _ (fun j M' => applied R C T col n lo j M M')); [exact Hlo| | |exact HQ].
  - split; [exact HM|]. intros x t _ _. bcase.
  - intros j M1 H1 H2 [HM1 E1]. eapply wp_mono; [apply (HB j M1); assumption|]. intros M2 [HM2 E2]. split; [exact HM2|].
    intros x t Hx Ht. rewrite E2. destruct (Nat.eqb_spec x j) as [->|Ne].
    + rewrite E1 by (lia || assumption). bcase.
    + rewrite E1 by (lia || assumption). bcase.
Qed.

Lemma eight_applied : forall k col lo hi M TLs (Q : mzd * list (list (list N) * list nat) -> Prop), okm R C M ->
  1 <= k -> k <= 8 -> col + 8 * k <= R -> lo <= hi -> hi <= R -> length TLs = 8 -> (forall TL, In TL TLs -> tblok C k TL) ->
  (forall M' TLs', applied R C T col (8 * k) lo hi M M' -> length TLs' = 8 -> (forall TL, In TL TLs' -> tblok C k TL) -> Q (M', TLs')) ->
  wp (TLs <- make_tables M col 0 (repeat k 8) TLs ;;
      B <- for_up lo hi (fun j B =>
             a <- mzd_read_bits T j col (8 * k) ;;
             ts <- table_rows a (repeat k 8) TLs ;;
             b <- aget (mrows B) j ;; b <- combine 0 (mwidth B) (map snd ts) b ;;
             rs <- aset (mrows B) j b ;; Ok (with_rows B rs)) M ;;
      Ok (B, TLs)) Q.
Proof.
  intros k col lo hi M TLs Q HM Hk1 Hk8 Hcol Hlo Hhi HL HTL HQ.
  apply (eight_ok R R C T M HT HM HC (fun x t => xorb (bitat M x t) (fmul col (bitat T) (bitat M) x t)) k col lo hi M TLs (fun _ => col)); auto.
  - split; [exact HM|]. intros x t _. rewrite xorb_assoc, xorb_nilpotent, xorb_false_r. reflexivity.
  - intros M' TLs' [HM' E] HL' HT'. apply HQ; [|exact HL'|exact HT']. split; [exact HM'|]. intros x t Hx Ht. rewrite E by exact Hx.
    destruct (Nat.leb lo x && Nat.ltb x hi).
    + rewrite (fmul_more T M col (8 * k) x t). destruct (bitat M x t), (fmul col (bitat T) (bitat M) x t); cbn [xorb]; try rewrite !xorb_false_l; try reflexivity;
      destruct (xsum (8 * k) _); reflexivity.
    + rewrite xorb_assoc, xorb_nilpotent, xorb_false_r. reflexivity.
Qed.

(** One table *)
Lemma table_row : forall Kt k col M M1 TL j, okm R C M -> okm R C M1 -> 1 <= k -> k <= Kt -> Kt <= 8 -> col + k <= R -> j < R -> tblok C Kt TL ->
  tblspec (fun l t => bitat M (col + l) t) 0 k TL ->
  wp (bits <- mzd_read_bits T j col k ;; x <- aget (snd TL) (N.to_nat bits) ;; aget (fst TL) x)
    (fun r => wfr C r /\ forall t, rowbit r t = xsum k (fun l => bitat T j (col + l) && bitat M (col + l) t)).
Proof.
  intros Kt k col M M1 TL j HM HM1 Hk1 Hk2 HKt Hcol Hj HO HS.
  apply wp_bind, (wp_read_bitsd R R); [exact HT|exact Hj|lia|lia|lia|]. intros v Hv.
  assert (Hid : N.to_nat v < 2 ^ k).
  { apply bits_lt. intros b Hb. rewrite Hv in Hb. destruct (Nat.ltb_spec b k); [assumption|discriminate]. }
  destruct (tblspec_id C Kt _ 0 k TL _ HO HS Hk2 Hid) as (x & E1 & E2 & E3 & E4 & E5 & E6).
  apply wp_bind, (wp_aget _ _ _ 0); [exact E4|]. rewrite E1. apply (wp_aget _ _ _ []); [exact E3|]. split; [exact E5|].
  intros t. rewrite E6 by lia. cbn [Nat.leb andb]. apply xsum_ext. intros l Hl. rewrite N2Nat.id, Hv.
  destruct (Nat.ltb_spec l k); [reflexivity|lia].
Qed.

(** ** Lower *)

Lemma low_applied : forall col n M M', inv R C T B0 (apl col (col + n)) M -> applied R C T col n (col + n) R M M' -> col + n <= R ->
  inv R C T B0 (apl (col + n) (col + n)) M'.
Proof.
  intros col n M M' HI HA Hn. apply (inv_applied R C T B0 (apl col (col + n)) _ col n (col + n) R M M' HI HA Hn).
  - intros x k Hx Hk. unfold apl. bcase.
  - intros x k Hx Hk. unfold apl. bcase.
  - intros x k Hx Hk H1 H2. unfold apl. bcase.
Qed.

Lemma lower_step_ok : forall Kt i k M TLs (Q : mzd * list (list (list N) * list nat) -> Prop), 1 <= k -> k <= Kt -> Kt <= 8 -> i + k <= R ->
  inv R C T B0 (apl i i) M -> 0 < length TLs -> (forall TL, In TL TLs -> tblok C Kt TL) ->
  (forall M' TLs', inv R C T B0 (apl (i + k) (i + k)) M' -> length TLs' = length TLs -> (forall TL, In TL TLs' -> tblok C Kt TL) -> Q (M', TLs')) ->
  wp (lower_step T i k (M, TLs)) Q.
Proof.
  intros Kt i k M TLs Q Hk1 Hk2 HKt Hi HI HL HTL HQ. unfold lower_step. pose proof HT as [HrT _].
  apply wp_bind, (lower_rows_ok R C T B0); [exact HC|exact Hi|eapply reads_bit; [exact HT|exact Hi]|exact HI|].
  intros M1 H1. pose proof H1 as [HM1 _].
  apply wp_bind, (wp_aget _ _ _ ([], [])); [lia|]. set (TL := nth 0 TLs ([], [])).
  assert (HTL0 : tblok C Kt TL) by (apply HTL; unfold TL; apply nth_In; lia).
  apply wp_bind, (wp_make_table R C M1 i 0 k Kt); [exact HM1|lia|lia|lia|lia|lia|exact HTL0|]. intros TL' HO HS. rewrite HrT.
  apply wp_bind, (applied_loop _ M1 i k); [exact HM1|lia|lia| |].
  - intros j M2 Hj1 Hj2 HM2.
    pose proof (table_row Kt k i M1 M2 TL' j HM1 HM2 Hk1 Hk2 HKt Hi Hj2 HO HS) as W.
    apply wp_exists in W. destruct W as (r & Er & Wr & Eb).
    destruct (mzd_read_bits T j i k) as [bits|]; [|discriminate]. cbn [bind] in Er |- *.
    destruct (aget (snd TL') (N.to_nat bits)) as [x|]; [|discriminate]. cbn [bind] in Er |- *. rewrite Er. cbn [bind].
    apply (add_row_ok R C HC M2 j [r] (fun t => xsum k (fun l => bitat T j (i + l) && bitat M1 (i + l) t))); [exact HM2|exact Hj2| | |].
    + intros t [<-|[]]. exact Wr.
    + intros t. unfold fxor. cbn [map fold_right]. rewrite xorb_false_r. apply Eb.
    + intros M3 HM3 E3. split; [exact HM3|exact E3].
  - intros M2 HA. apply wp_bind, wp_aset; [lia|]. apply wp_ok, HQ.
    + apply (low_applied i k M1); [exact H1|exact HA|exact Hi].
    + apply length_upd.
    + intros TL2 HIn. apply (In_nth _ _ ([], [])) in HIn. destruct HIn as [n [Hn <-]]. rewrite length_upd in Hn.
      rewrite nth_upd by lia. destruct (Nat.eqb_spec n 0); [exact HO|]. apply HTL, nth_In. exact Hn.
Qed.

Lemma tri_k_ok : forall kc B, 2 <= tri_k kc B /\ tri_k kc B <= 8.
Proof. intros kc B. unfold tri_k. cbv zeta. bcase. Qed.
Lemma tri_tables_ok : forall B k, mncols B = C -> length (tri_tables B k) = 8 /\ forall TL, In TL (tri_tables B k) -> tblok C k TL.
Proof.
  intros B k E. unfold tri_tables. split; [apply repeat_length|]. intros TL H. apply repeat_spec in H. subst TL. rewrite E.
  destruct (init_ok (2 ^ k) C) as [[_ [_ [HL HW]]] HI]. split; [exact HL|]. split; [apply repeat_length|].
  split; [exact HW|]. intros j. exact (HI 0 j).
Qed.

Lemma groups : forall nr kk, 1 <= nr -> 1 <= kk -> kk * ((nr - 1) / kk) < nr /\ forall g, g < (nr - 1) / kk -> kk * g + kk < nr.
Proof.
  intros nr kk H1 H2. pose proof (Nat.mul_div_le (nr - 1) kk ltac:(lia)) as H. split; [lia|].
  intros g Hg. assert (kk * S g <= kk * ((nr - 1) / kk)) by (apply Nat.mul_le_mono_l; lia). lia.
Qed.
Lemma steps : forall r k, 1 <= k -> r = k * (r / k) + r mod k /\ r mod k < k /\ forall s, s < r / k -> k * s + k <= r.
Proof.
  intros r k H. pose proof (Nat.div_mod r k ltac:(lia)). pose proof (Nat.mod_upper_bound r k ltac:(lia)).
  repeat split; [lia|lia|]. intros s Hs. assert (k * S s <= k * (r / k)) by (apply Nat.mul_le_mono_l; lia). lia.
Qed.

Lemma inv_start : forall M, okm R C M -> (forall x t, x < R -> t < C -> bitat M x t = B0 x t) -> inv R C T B0 (apl 0 0) M.
Proof.
  intros M HM E. split; [exact HM|]. intros x t Hx Ht. rewrite xsum_false; [rewrite xorb_false_r; auto|].
  intros k _. unfold apl. bcase.
Qed.

Lemma lower_russian_ok : forall kc M (Q : mzd -> Prop), 1 <= R -> inv R C T B0 (apl 0 0) M ->
  (forall M', inv R C T B0 (apl R R) M' -> Q M') -> wp (lower_russian kc T M) Q.
Proof.
  intros kc M Q HR HI HQ. unfold lower_russian. pose proof HI as [(M1 & M2 & _) _]. rewrite M1, M2.
  destruct (Nat.eqb_spec C 0); [lia|]. destruct (Nat.eqb_spec R 0); [lia|]. cbn [orb]. cbv zeta.
  destruct (tri_k_ok kc M) as [K2 K8]. set (k := tri_k kc M) in *. clearbody k.
  destruct (groups R (8 * k) HR ltac:(lia)) as [G1 G2]. set (G := (R - 1) / (8 * k)) in *. clearbody G.
  destruct (tri_tables_ok M k M2) as [L0 T0].
  apply wp_bind, (wp_for_up _ (fun g '(M, TLs) => inv R C T B0 (apl (8 * k * g) (8 * k * g)) M /\ length TLs = 8 /\ forall TL, In TL TLs -> tblok C k TL)); [lia| | |].
  - rewrite Nat.mul_0_r. split; [exact HI|]. split; assumption.
  - intros g [Mg TLs] _ Hg (Hi & HL & HTL). specialize (G2 g Hg).
    apply wp_bind, (lower_rows_ok R C T B0); [exact HC|lia|eapply reads_bit; [exact HT|lia]|exact Hi|].
    intros Mh Hh. apply (eight_applied k (8 * k * g) (8 * k * g + 8 * k) R Mh TLs); [apply Hh|lia|lia|lia|lia|lia|exact HL|exact HTL|].
    intros M' TLs' HA HL' HT'. split; [|split; assumption].
    replace (8 * k * S g) with (8 * k * g + 8 * k) by lia. apply (low_applied _ _ Mh); [exact Hh|exact HA|lia].
  - intros [Mg TLs] (Hg & HL & HTL). set (i0 := 8 * k * G) in *. clearbody i0. clear G2 L0 T0 G.
    destruct (steps (R - i0) k ltac:(lia)) as (S1 & S2 & S3). set (q := (R - i0) / k) in *. set (rest := (R - i0) mod k) in *. clearbody q rest.
    apply wp_bind, (wp_for_up _ (fun s '(M, TLs) => inv R C T B0 (apl (i0 + k * s) (i0 + k * s)) M /\ length TLs = 8 /\ forall TL, In TL TLs -> tblok C k TL)); [lia| | |].
    + rewrite Nat.mul_0_r, Nat.add_0_r. split; [exact Hg|]. split; assumption.
    + intros s [Ms TLs1] _ Hs (Hi & HL1 & HT1). specialize (S3 s Hs).
      apply (lower_step_ok k); [lia|lia|lia|lia|exact Hi|lia|exact HT1|]. intros M' TLs' HM' HL' HT'. split; [|split; [lia|exact HT']].
      replace (i0 + k * S s) with (i0 + k * s + k) by lia. exact HM'.
    + intros [Ms TLs1] (Hi & HL1 & HT1). destruct (Nat.eqb_spec rest 0) as [Er|Er].
      * apply wp_ok, HQ. replace R with (i0 + k * q) at 2 3 by lia. exact Hi.
      * apply wp_bind, (lower_step_ok k); [lia|lia|lia|lia|exact Hi|lia|exact HT1|]. intros M' TLs' HM' HL' HT'. apply wp_ok, HQ.
        replace R with (i0 + k * q + rest) at 2 3 by lia. exact HM'.
Qed.

(** ** Upper *)

Fixpoint downspec (Kt : nat) (M : mzd) (top k : nat) (TLs : list (list (list N) * list nat)) : Prop :=
  match TLs with
  | [] => True
  | TL :: TLs' => tblok C Kt TL /\ tblspec (fun l t => bitat M (top - k + l) t) 0 k TL /\ downspec Kt M (top - k) k TLs'
  end.

Lemma make_down_ok : forall Kt M k TLs top (Q : list (list (list N) * list nat) -> Prop), okm R C M -> 1 <= k -> k <= Kt -> Kt <= 8 ->
  length TLs * k <= top -> top <= R -> (forall TL, In TL TLs -> tblok C Kt TL) ->
  (forall TLs', length TLs' = length TLs -> (forall TL, In TL TLs' -> tblok C Kt TL) -> downspec Kt M top k TLs' -> Q TLs') ->
  wp (make_down M top k TLs) Q.
Proof.
  intros Kt M k TLs. induction TLs as [|TL TLs IH]; intros top Q HM Hk1 Hk2 HKt Hl Htop HTL HQ; cbn [make_down].
  - apply wp_ok, HQ; [reflexivity|intros TL []|exact I].
  - cbn [length] in Hl. apply wp_bind, (wp_make_table R C M (top - k) 0 k Kt); [exact HM|lia|lia|lia|lia|lia|apply HTL; left; reflexivity|].
    intros TL' HO HS. apply wp_bind, IH; [exact HM|lia|lia|lia|lia|lia|intros; apply HTL; right; assumption|].
    intros TLs' L' O' D'. apply wp_ok, HQ; [cbn [length]; lia|intros X [<-|HX]; auto|]. cbn [downspec]. auto.
Qed.

Lemma rows_down_ok : forall Kt M k j TLs top (Q : list (list N) -> Prop), okm R C M -> 1 <= k -> k <= Kt -> Kt <= 8 -> j < R ->
  length TLs * k <= top -> top <= R -> downspec Kt M top k TLs ->
  (forall ts, (forall t, In t ts -> wfr C t) ->
    (forall t, fxor (map (fun r => rowbit r t) ts) =
       xsum (length TLs * k) (fun l => bitat T j (top - length TLs * k + l) && bitat M (top - length TLs * k + l) t)) -> Q ts) ->
  wp (rows_down T j top k TLs) Q.
Proof.
  intros Kt M k j TLs. induction TLs as [|TL TLs IH]; intros top Q HM Hk1 Hk2 HKt Hj Hl Htop HD HQ; cbn [rows_down].
  - apply wp_ok, HQ; [intros t []|]. reflexivity.
  - cbn [length] in Hl. destruct HD as (HO & HS & HD).
    pose proof (table_row Kt k (top - k) M M TL j HM HM Hk1 Hk2 HKt ltac:(lia) Hj HO HS) as W.
    apply wp_exists in W. destruct W as (r & Er & Wr & Eb). destruct TL as [TT L]. cbn [fst snd] in Er.
    destruct (mzd_read_bits T j (top - k) k) as [bits|]; [|discriminate]. cbn [bind] in Er |- *.
    destruct (aget L (N.to_nat bits)) as [x|]; [|discriminate]. cbn [bind] in Er |- *. rewrite Er. cbn [bind].
    apply wp_bind, IH; [exact HM|lia|lia|lia|exact Hj|lia|lia|exact HD|]. intros ts Hts Ets. apply wp_ok, HQ.
    + intros t [<-|Ht]; auto.
    + intros t. unfold fxor. cbn [map fold_right]. change (fold_right xorb false (map (fun r0 => rowbit r0 t) ts)) with (fxor (map (fun r0 => rowbit r0 t) ts)).
      rewrite Ets, Eb. cbn [length]. replace (S (length TLs) * k) with (length TLs * k + k) by lia. rewrite xsum_add, xorb_comm. f_equal.
      * apply xsum_ext. intros l Hll. replace (top - k - length TLs * k) with (top - (length TLs * k + k)) by lia. reflexivity.
      * apply xsum_ext. intros l Hll. replace (top - (length TLs * k + k) + (length TLs * k + l)) with (top - k + l) by lia. reflexivity.
Qed.

Lemma upper_tables_ok : forall Kt M k TLs top (Q : mzd * list (list (list N) * list nat) -> Prop), 1 <= k -> k <= Kt -> Kt <= 8 ->
  length TLs * k <= top -> top <= R -> (forall TL, In TL TLs -> tblok C Kt TL) -> inv R C T B0 (apu top (top - length TLs * k)) M ->
  (forall M' TLs', inv R C T B0 (apu (top - length TLs * k) (top - length TLs * k)) M' -> length TLs' = length TLs ->
     (forall TL, In TL TLs' -> tblok C Kt TL) -> Q (M', TLs')) ->
  wp (upper_tables T top k M TLs) Q.
Proof.
  intros Kt M k TLs top Q Hk1 Hk2 HKt Hl Htop HTL HI HQ. unfold upper_tables. pose proof HI as [HM _].
  apply wp_bind, (make_down_ok Kt); [exact HM|lia|lia|lia|exact Hl|exact Htop|exact HTL|]. intros TLs' L' O' D'.
  apply wp_bind, (applied_loop _ M (top - length TLs * k) (length TLs * k)); [exact HM|lia|lia| |].
  - intros j M2 Hj1 Hj2 HM2. rewrite <- L' in Hl.
    apply wp_bind, (rows_down_ok Kt M); [exact HM|lia|lia|lia|lia|exact Hl|exact Htop|exact D'|]. intros ts Hts Ets. rewrite L' in Ets.
    apply (add_row_ok R C HC M2 j ts (fun t => xsum (length TLs * k) (fun l => bitat T j (top - length TLs * k + l) && bitat M (top - length TLs * k + l) t)));
      [exact HM2|lia|exact Hts|exact Ets|]. intros M3 HM3 E3. split; [exact HM3|exact E3].
  - intros M2 HA. apply wp_ok, HQ; [|exact L'|exact O'].
    set (n := length TLs * k) in *. clearbody n.
    apply (inv_applied R C T B0 (apu top (top - n)) _ (top - n) n 0 (top - n) M M2 HI HA ltac:(lia)).
    + intros x y Hx Hy. unfold apu. bcase.
    + intros x y Hx Hy _ H1 H2 H3. unfold apu. bcase.
    + intros x y Hx Hy _ H1. unfold apu. bcase.
Qed.

Lemma upper_step_ok : forall Kt i k M TLs (Q : mzd * list (list (list N) * list nat) -> Prop), 1 <= k -> k <= Kt -> Kt <= 8 -> i + k <= R ->
  inv R C T B0 (apu (R - i) (R - i)) M -> 0 < length TLs -> (forall TL, In TL TLs -> tblok C Kt TL) ->
  (forall M' TLs', inv R C T B0 (apu (R - i - k) (R - i - k)) M' -> length TLs' = length TLs -> (forall TL, In TL TLs' -> tblok C Kt TL) -> Q (M', TLs')) ->
  wp (upper_step T i k (M, TLs)) Q.
Proof.
  intros Kt i k M TLs Q Hk1 Hk2 HKt Hi HI HL HTL HQ. unfold upper_step. pose proof HI as [(M1 & _) _]. rewrite M1. cbv zeta.
  apply wp_bind, (upper_rows_ok R C T B0); [exact HC|lia|eapply reads_bit; [exact HT|lia]|replace (R - i - k + k) with (R - i) by lia; exact HI|].
  intros M2 H2. replace (R - i - k + k) with (R - i) in H2 by lia.
  destruct TLs as [|TL TLs]; [cbn in HL; lia|]. cbn [firstn skipn].
  apply wp_bind, (upper_tables_ok Kt); [exact Hk1|exact Hk2|exact HKt|cbn [length]; lia|lia|intros X [<-|[]]; apply HTL; left; reflexivity| |].
  - cbn [length]. rewrite Nat.mul_1_l. exact H2.
  - cbn [length]. rewrite Nat.mul_1_l. intros M' TLs' HM' HL' HT'. apply wp_ok, HQ; [exact HM'|rewrite app_length; cbn [length]; lia|].
    intros X HX. apply in_app_or in HX. destruct HX as [HX|HX]; [apply HT'; exact HX|apply HTL; right; exact HX].
Qed.

Lemma upper_russian_ok : forall kc M (Q : mzd -> Prop), 1 <= R -> inv R C T B0 (apu R R) M ->
  (forall M', inv R C T B0 (apu 0 0) M' -> Q M') -> wp (upper_russian kc T M) Q.
Proof.
  intros kc M Q HR HI HQ. unfold upper_russian. pose proof HI as [(M1 & M2 & _) _]. rewrite M1, M2.
  destruct (Nat.eqb_spec C 0); [lia|]. destruct (Nat.eqb_spec R 0); [lia|]. cbn [orb]. cbv zeta.
  destruct (tri_k_ok kc M) as [K2 K8]. set (k := tri_k kc M) in *. clearbody k.
  destruct (groups R (8 * k) HR ltac:(lia)) as [G1 G2]. set (G := (R - 1) / (8 * k)) in *. clearbody G.
  destruct (tri_tables_ok M k M2) as [L0 T0].
  apply wp_bind, (wp_for_up _ (fun g '(M, TLs) => inv R C T B0 (apu (R - 8 * k * g) (R - 8 * k * g)) M /\ length TLs = 8 /\ forall TL, In TL TLs -> tblok C k TL)); [lia| | |].
  - rewrite Nat.mul_0_r, Nat.sub_0_r. split; [exact HI|]. split; assumption.
  - intros g [Mg TLs] _ Hg (Hi & HL & HTL). specialize (G2 g Hg).
    apply wp_bind, (upper_rows_ok R C T B0); [exact HC|lia|eapply reads_bit; [exact HT|lia]|replace (R - 8 * k * g - 8 * k + 8 * k) with (R - 8 * k * g) by lia; exact Hi|].
    intros Mh Hh. replace (R - 8 * k * g - 8 * k + 8 * k) with (R - 8 * k * g) in Hh by lia.
    apply (upper_tables_ok k); [lia|lia|lia|lia|lia|exact HTL|rewrite HL; exact Hh|].
    intros M' TLs' HM' HL' HT'. split; [|split; [lia|assumption]].
    rewrite HL in HM'. replace (R - 8 * k * S g) with (R - 8 * k * g - 8 * k) by lia. exact HM'.
  - intros [Mg TLs] (Hg & HL & HTL). set (i0 := 8 * k * G) in *. clearbody i0. clear G2 L0 T0 G.
    destruct (steps (R - i0) k ltac:(lia)) as (S1 & S2 & S3). set (q := (R - i0) / k) in *. set (rest := (R - i0) mod k) in *. clearbody q rest.
    apply wp_bind, (wp_for_up _ (fun s '(M, TLs) => inv R C T B0 (apu (R - (i0 + k * s)) (R - (i0 + k * s))) M /\ length TLs = 8 /\ forall TL, In TL TLs -> tblok C k TL)); [lia| | |].
    + rewrite Nat.mul_0_r, Nat.add_0_r. split; [exact Hg|]. split; assumption.
    + intros s [Ms TLs1] _ Hs (Hi & HL1 & HT1). specialize (S3 s Hs).
      apply (upper_step_ok k); [lia|lia|lia|lia|exact Hi|lia|exact HT1|]. intros M' TLs' HM' HL' HT'. split; [|split; [lia|exact HT']].
      replace (R - (i0 + k * S s)) with (R - (i0 + k * s) - k) by lia. exact HM'.
    + intros [Ms TLs1] (Hi & HL1 & HT1). destruct (Nat.eqb_spec rest 0) as [Er|Er].
      * apply wp_ok, HQ. replace (R - (i0 + k * q)) with 0 in Hi by lia. exact Hi.
      * apply wp_bind, (upper_step_ok k); [lia|lia|lia|lia|exact Hi|lia|exact HT1|]. intros M' TLs' HM' HL' HT'. apply wp_ok, HQ.
        replace (R - (i0 + k * q) - rest) with 0 in HM' by lia. exact HM'.
Qed.
End Sys.
