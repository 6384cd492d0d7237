(** The kernel by a factorisation *)
From Coq Require Import Arith NArith ZArith List Bool Lia ZifyNat.
From Verif Require Import Base Spec LinAlg ModelM4ri SpecM4ri M4ri1 M4riD ModelM4ri2 SpecM4ri2 M4ri9 M4ri14 M4ri16 M4ri18 ModelStrassen SpecStrassen Strassen1 Strassen4 ModelTri SpecTri Tri1 Tri2 Tri3 ModelPle SpecPle Ple1 Ple2 Ple3.
Import ListNotations.
#[local] Ltac Zify.zify_post_hook ::= Z.to_euclidean_division_equations.

(** ** Linear algebra *)
Lemma upper_unique : forall r D (v : fvec), (forall x, x < r -> xsum r (fun k => unit_upper D x k && v k) = false) -> forall k, k < r -> v k = false.
Proof.
  intros r D v H. assert (X : forall d k, k < r -> r - k <= d -> v k = false); [|intros k Hk; apply (X r); lia].
  induction d as [|d IH]; intros k Hk Hd; [lia|]. specialize (H k Hk). rewrite (xsum_single r k) in H; [|exact Hk|].
  - unfold unit_upper in H. rewrite Nat.ltb_irrefl, Nat.eqb_refl in H. exact H.
  - intros k' Hk' Hne. destruct (Nat.lt_ge_cases k' k) as [G|G].
    + unfold unit_upper. destruct (Nat.ltb_spec k k'); [lia|]. destruct (Nat.eqb_spec k k'); [lia|reflexivity].
    + rewrite IH by lia. apply andb_false_r.
Qed.

Lemma kernel_iff : forall m n r A0 D P Q, pluq_of m n r A0 D P Q -> forall v,
  (forall i, i < m -> xsum n (fun j => A0 i j && v j) = false) <->
  (forall k, k < r -> xsum n (fun y => unit_upper D k y && v (perm (at_ Q) n y)) = false).
Proof.
  intros m n r A0 D P Q H v. pose proof H as (SP & SQ & Hm & Hn & _). pose proof (swaps_lt m P SP) as WP. split.
  - intros E. apply (lower_unique r D (fun k => xsum n (fun y => unit_upper D k y && v (perm (at_ Q) n y)))). intros x Hx.
    rewrite <- (pluq_apply m n r A0 D P Q H v x) by lia. apply E, perm_lt; [exact WP|lia].
  - intros E i Hi. rewrite <- (perm_iperm (at_ P) m i). rewrite (pluq_apply m n r A0 D P Q H v) by (apply iperm_lt; assumption).
    apply xsum_false. intros k Hk. rewrite E by exact Hk. apply andb_false_r.
Qed.

(** The basis: X solves U11 X = U12, below it is the identity *)
Lemma kernel_ok : forall m n r A0 D P Q (R K : fmat), pluq_of m n r A0 D P Q ->
  (forall k t, k < r -> t < n - r -> xsum r (fun y => unit_upper D k y && R y t) = D k (r + t)) ->
  (forall y t, r <= y -> y < n -> t < n - r -> R y t = Nat.eqb (y - r) t) ->
  (forall x t, x < n -> t < n - r -> K x t = R (iperm (at_ Q) n x) t) -> kernel_basis m n (n - r) A0 K.
Proof.
  intros m n r A0 D P Q R K H HU HI HK. pose proof H as (SP & SQ & Hm & Hn & _). pose proof (swaps_lt n Q SQ) as WQ.
  assert (US : forall k z, k < r -> xsum n (fun y => unit_upper D k y && z y) =
     xorb (xsum r (fun y => unit_upper D k y && z y)) (xsum (n - r) (fun t => D k (r + t) && z (r + t)))).
  { intros k z Hk. replace n with (r + (n - r)) at 1 by lia. rewrite xsum_add. f_equal. apply xsum_ext. intros t Ht.
    unfold unit_upper at 1. destruct (Nat.ltb_spec k (r + t)); [reflexivity|lia]. }
  assert (UR : forall k w, k < r -> xsum r (fun y => unit_upper D k y && xsum (n - r) (fun t => R y t && w t)) = xsum (n - r) (fun t => D k (r + t) && w t)).
  { intros k w Hk. rewrite (xsum_ext r _ (fun y => xsum (n - r) (fun t => unit_upper D k y && (R y t && w t)))) by (intros; rewrite xsum_andb_l; reflexivity).
    rewrite xsum_swap. apply xsum_ext. intros t Ht. rewrite <- HU by assumption. rewrite <- xsum_andb_r. apply xsum_ext. intros y Hy. apply andb_assoc. }
  assert (RI : forall y w, r <= y -> y < n -> xsum (n - r) (fun t => R y t && w t) = w (y - r)).
  { intros y w Hy1 Hy2. rewrite (xsum_ext _ _ (fun t => fid (y - r) t && w t)) by (intros t Ht; rewrite HI by assumption; reflexivity). apply xsum_fid_l. lia. }
  split.
  - intros v. rewrite (kernel_iff m n r A0 D P Q H v). split.
    + intros E. set (z := fun y => v (perm (at_ Q) n y)). exists (fun t => z (r + t)). intros j Hj.
      assert (Z : forall y, y < n -> z y = xsum (n - r) (fun t => R y t && z (r + t))).
      { intros y Hy. destruct (Nat.lt_ge_cases y r) as [G|G].
        - apply xorb_eq. apply (upper_unique r D (fun y => xorb (z y) (xsum (n - r) (fun t => R y t && z (r + t))))); [|exact G]. intros k Hk.
          rewrite (xsum_ext r _ (fun y => xorb (unit_upper D k y && z y) (unit_upper D k y && xsum (n - r) (fun t => R y t && z (r + t))))).
          2: { intros y' _. destruct (unit_upper D k y'), (z y'), (xsum (n - r) (fun t => R y' t && z (r + t))); reflexivity. }
          rewrite xsum_xorb, (UR k (fun t => z (r + t))) by exact Hk. rewrite <- US by exact Hk. apply E, Hk.
        - rewrite (RI y (fun t => z (r + t))) by assumption. f_equal. lia. }
      rewrite <- (perm_iperm (at_ Q) n j) at 1. fold (z (iperm (at_ Q) n j)). rewrite Z by (apply iperm_lt; assumption).
      apply xsum_ext. intros t Ht. rewrite HK by assumption. reflexivity.
    + intros [w E] k Hk. rewrite (US k (fun y => v (perm (at_ Q) n y)) Hk).
      assert (Ev : forall y, y < n -> v (perm (at_ Q) n y) = xsum (n - r) (fun t => R y t && w t)).
      { intros y Hy. rewrite E by (apply perm_lt; assumption). apply xsum_ext. intros t Ht. rewrite HK by (auto; apply perm_lt; assumption). rewrite iperm_perm. reflexivity. }
      rewrite (xsum_ext r _ (fun y => unit_upper D k y && xsum (n - r) (fun t => R y t && w t))) by (intros y Hy; rewrite Ev by lia; reflexivity).
      rewrite UR by exact Hk. rewrite <- xsum_xorb. apply xsum_false. intros t Ht. rewrite Ev by lia. rewrite RI by lia.
      replace (r + t - r) with t by lia. apply xorb_nilpotent.
  - intros w E k Hk. rewrite <- (E (perm (at_ Q) n (r + k))) by (apply perm_lt; [exact WQ|lia]).
    rewrite (xsum_ext _ _ (fun t => R (r + k) t && w t)).
    + rewrite RI by lia. f_equal. lia.
    + intros t Ht. rewrite HK by (exact Ht || (apply perm_lt; [exact WQ|lia])). rewrite iperm_perm. reflexivity.
Qed.

Lemma kernel_trivial : forall m n A0 D P Q K, pluq_of m n n A0 D P Q -> kernel_basis m n 0 A0 K.
Proof.
  intros m n A0 D P Q K H. replace 0 with (n - n) by lia.
  pose proof H as (_ & SQ & _). pose proof (swaps_lt n Q SQ) as WQ. split.
  - intros v. rewrite (kernel_iff m n n A0 D P Q H v). split.
    + intros E. exists (fun _ => false). intros j Hj. replace (n - n) with 0 by lia. cbn [xsum].
      rewrite <- (perm_iperm (at_ Q) n j). apply (upper_unique n D (fun y => v (perm (at_ Q) n y)) E). apply iperm_lt; assumption.
    + intros [w E] k Hk. apply xsum_false. intros y Hy. rewrite E by (apply perm_lt; assumption). replace (n - n) with 0 by lia. cbn [xsum]. apply andb_false_r.
  - intros; lia.
Qed.

(** ** The program *)
Lemma xor_word_ok : forall R C M i w n v (Q : mzd -> Prop), okm R C M -> i < R -> 1 <= n -> n <= 64 -> 64 * w + n <= C ->
  (forall l, n <= l -> tb v l = false) ->
  (forall M', okm R C M' -> (forall a j, bitat M' a j = if Nat.eqb a i && Nat.leb (64 * w) j && Nat.ltb j (64 * w + n) then xorb (bitat M a j) (tb v (j - 64 * w)) else bitat M a j) -> Q M') ->
  wp (mzd_xor_bits M i (64 * w) n v) Q.
Proof.
  intros R C M i w n v Q HM Hi Hn1 Hn2 Hw Hv HQ. unfold mzd_xor_bits. cbv zeta.
  replace ((64 * w) mod 64) with 0 by lia. replace (64 * w / 64) with w by lia.
  assert (Hk : w < wwidth C) by (pose proof (wwidth_lt C (64 * w) ltac:(lia)); lia).
  apply wp_bind, (wp_wget R C); auto. apply wp_bind, wp_shl; [lia|]. intros s Es.
  assert (Es' : forall b, tb s b = tb v b).
  { intros b. rewrite Es, Nat.sub_0_r. destruct (Nat.ltb_spec b 64); rewrite ?andb_true_r; cbn [Nat.leb andb]; [reflexivity|].
    rewrite Hv by lia. reflexivity. }
  assert (W : wfr C (nth i (mrows M) [])) by (apply HM; exact Hi).
  apply wp_bind, (wp_wset R C); auto.
  { intros b Hb. rewrite tb_lxor, Es' in Hb. destruct (Nat.lt_ge_cases b n); [lia|]. rewrite Hv, xorb_false_r in Hb by assumption. apply W in Hb. exact Hb. }
  intros M' HM' E. destruct (Nat.ltb_spec (64 - 0) n); [lia|]. apply wp_ok, HQ; [exact HM'|]. intros a j. rewrite E.
  destruct (Nat.eqb_spec a i) as [->|]; cbn [andb]; [|reflexivity].
  destruct (Nat.eqb_spec (j / 64) w) as [Ej|Ej].
  - rewrite tb_lxor, Es'. unfold bitat. rewrite rowbit_tb, Ej. unfold rw. replace (j - 64 * w) with (j mod 64) by lia.
    destruct (Nat.leb_spec (64 * w) j), (Nat.ltb_spec j (64 * w + n)); try lia; cbn [andb]; [reflexivity|].
    rewrite Hv by lia. apply xorb_false_r.
  - destruct (Nat.leb_spec (64 * w) j), (Nat.ltb_spec j (64 * w + n)); try lia; reflexivity.
Qed.

Section Kernel.
Variables (kcache : nat) (junk : nat -> list N) (cutoff : nat).
Hypothesis Hj : junk_ok junk.
Hypothesis Hc : (N.of_nat cutoff < 2 ^ 29)%N.
Hypothesis Hraw : cutoff = 0 \/ 64 <= cutoff.

Lemma kernel_of_pluq_ok : forall m n r A0 A P Q (Post : option mzd -> Prop), okm m n A -> pluq_of m n r A0 (bitat A) P Q -> fits n n ->
  (r = n -> Post None) -> (forall K, r < n -> okm n (n - r) K -> kernel_basis m n (n - r) A0 (bitat K) -> Post (Some K)) ->
  wp (kernel_of_pluq kcache junk A r Q cutoff) Post.
Proof.
  intros m n r A0 A P Q Post HA H F H1 H2. unfold kernel_of_pluq. pose proof HA as (A1 & A2 & _). rewrite A2.
  pose proof H as (SP & SQ & Hm & Hn & _). pose proof SQ as [LQ HQ].
  destruct (Nat.eqb_spec r n) as [->|Hrn]; [apply wp_ok, H1; reflexivity|].
  apply wp_bind, (wp_wind m n A 0 0 r r r r); [apply okm_okd; exact HA|reflexivity|lia|lia|lia|lia|]. intros U HU _ EU. cbv zeta.
  change (mncols (mzd_init n (n - r))) with (n - r).
  destruct (init_ok n (n - r)) as [HR ER]. set (R := mzd_init n (n - r)) in *. clearbody R.
  apply wp_bind, (wp_win n (n - r) R 0 0 r (n - r) r (n - r)); [exact HR|split; lia|lia|lia|lia|]. intros RU HRU ERU.
  apply wp_bind.
  apply (wp_for_up _ (fun i RU' => okm r (n - r) RU' /\ forall x t, x < r -> t < n - r -> bitat RU' x t = if Nat.ltb x i then bitat A x (r + t) else false)).
  { lia. }
  { split; [exact HRU|]. intros x t Hx Ht. rewrite ERU by assumption. apply ER. }
  { intros i RU' _ Hi [HRU' E'].
    apply (wp_for_up _ (fun w M2 => okm r (n - r) M2 /\ forall x t, x < r -> t < n - r -> bitat M2 x t =
       if Nat.eqb x i && Nat.ltb t (64 * w) then bitat A x (r + t) else bitat RU' x t)).
    - lia.
    - split; [exact HRU'|]. intros x t _ _. destruct (Nat.ltb_spec t (64 * 0)); [lia|]. rewrite andb_false_r. reflexivity.
    - intros w M2 _ Hw [HM2 E2]. apply wp_bind, (wp_read_bits m n); [exact HA|lia|lia|lia|lia|]. intros v Ev.
      apply (xor_word_ok r (n - r)); [exact HM2|exact Hi|lia|lia|lia| |].
      { intros l Hl. rewrite Ev. destruct (Nat.ltb_spec l (Nat.min 64 (n - r - 64 * w))); [lia|reflexivity]. }
      intros M3 HM3 E3. split; [exact HM3|]. intros x t Hx Ht. rewrite E3, !E2 by assumption.
      destruct (Nat.eqb_spec x i) as [->|]; cbn [andb]; [|reflexivity]. rewrite Ev.
      destruct (Nat.leb_spec (64 * w) t), (Nat.ltb_spec t (64 * w + Nat.min 64 (n - r - 64 * w))), (Nat.ltb_spec t (64 * w)), (Nat.ltb_spec t (64 * S w)),
        (Nat.ltb_spec (t - 64 * w) (Nat.min 64 (n - r - 64 * w))); try lia; cbn [andb]; try reflexivity.
      rewrite E' by assumption. rewrite Nat.ltb_irrefl, xorb_false_l. f_equal. lia.
    - intros M2 [HM2 E2]. split; [exact HM2|]. intros x t Hx Ht. rewrite E2, E' by assumption.
      destruct (Nat.ltb_spec t (64 * ((n - r + 63) / 64))); [|lia]. rewrite andb_true_r.
      destruct (Nat.eqb_spec x i), (Nat.ltb_spec x i), (Nat.ltb_spec x (S i)); lia || reflexivity. }
  intros RA [HRA ERA]. apply wp_bind. unfold mzd_trsm_upper_left. pose proof HU as (U1 & U2 & _). pose proof HRA as (R1 & R2 & _).
  rewrite U1, U2, R1, Nat.eqb_refl. cbn [negb orb].
  apply (trsm_upper_ok kcache junk cutoff Hj Hc Hraw (S r) r (n - r) U RA); [lia|lia|exact HU|exact HRA|eapply fits_le; [exact F|lia|lia]|eapply fits_le; [exact F|lia|lia]|eapply fits_le; [exact F|lia|lia]|].
  intros RB IRB. pose proof IRB as [HRB _].
  pose proof (upper_win A r (n - r) U RA RB ltac:(intros; rewrite EU by assumption; reflexivity) IRB) as ERB.
  destruct (put_ok n (n - r) R RB 0 0 r (n - r) HR HRB ltac:(split; lia) ltac:(lia)) as [HRC ERC].
  set (RC := put R RB 0 0) in *. clearbody RC. pose proof HRC as (C1 & C2 & _).
  apply wp_bind.
  apply (wp_for_up _ (fun i M => okm n (n - r) M /\ forall x t, x < n -> t < n - r -> bitat M x t = if Nat.leb r x && Nat.ltb (x - r) i && Nat.eqb (x - r) t then true else bitat RC x t)).
  { lia. }
  { split; [exact HRC|]. intros x t _ _. destruct (Nat.ltb_spec (x - r) 0); [lia|]. rewrite andb_false_r. reflexivity. }
  { intros i M _ Hi [HM E]. apply (wp_write_bit n (n - r) M (r + i) i true); [exact HM|lia|exact Hi|]. intros M' HM' E'. split; [exact HM'|].
    intros x t Hx Ht. rewrite E', E by assumption.
    destruct (Nat.eqb_spec x (r + i)), (Nat.eqb_spec t i), (Nat.leb_spec r x), (Nat.ltb_spec (x - r) i), (Nat.ltb_spec (x - r) (S i)), (Nat.eqb_spec (x - r) t); try lia; reflexivity. }
  intros RD [HRD ERD].
  apply wp_bind, (apply_p_left_trans_ok n (n - r) RD Q n); [exact HRD|lia|lia|intros i Hi; destruct (HQ i Hi); unfold at_; lia|]. intros K HK EK. apply wp_ok.
  apply H2; [lia|exact HK|]. apply (kernel_ok m n r A0 (bitat A) P Q (bitat RD) (bitat K) H).
  - intros k t Hk Ht. rewrite (xsum_ext r _ (fun y => unit_upper (bitat A) k y && bitat RB y t)).
    + rewrite ERB by assumption. rewrite ERA by assumption. destruct (Nat.ltb_spec k r); [reflexivity|lia].
    + intros y Hy. rewrite ERD, ERC by lia. destruct (Nat.leb_spec r y); [lia|]. cbn [andb].
      destruct (Nat.leb_spec 0 y), (Nat.ltb_spec y (0 + r)), (Nat.leb_spec 0 t), (Nat.ltb_spec t (0 + (n - r))); try lia. cbn [andb]. rewrite !Nat.sub_0_r. reflexivity.
  - intros y t Hy1 Hy2 Ht. rewrite ERD, ERC by lia. destruct (Nat.leb_spec r y), (Nat.ltb_spec (y - r) (n - r)); try lia. cbn [andb].
    destruct (Nat.eqb_spec (y - r) t); [reflexivity|]. destruct (Nat.ltb_spec y (0 + r)); [lia|]. rewrite andb_false_r. cbn [andb]. apply ER.
  - intros x t Hx Ht. apply EK.
Qed.
End Kernel.
