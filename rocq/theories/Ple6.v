(** Compressing L *)
From Coq Require Import Arith NArith ZArith List Bool Lia ZifyNat.
From Verif Require Import Base Spec LinAlg ModelM4ri SpecM4ri M4ri1 M4riD ModelM4ri2 SpecM4ri2 ModelStrassen ModelTri ModelPle ModelPle2 SpecTri SpecPle Ple1 Ple2 Ple3.
Import ListNotations.
#[local] Ltac Zify.zify_post_hook ::= Z.to_euclidean_division_equations.

Lemma bitat_in : forall R C M i j, okm R C M -> i < R -> bitat M i j = true -> j < C.
Proof. intros R C M i j HM Hi H. pose proof HM as (_ & _ & _ & W). specialize (W i Hi). unfold bitat in H. rewrite rowbit_tb in H. apply W in H. lia. Qed.

Lemma clear_part_ok : forall R C M i y n (Q : mzd -> Prop), okm R C M -> i < R -> 1 <= n -> y mod 64 + n <= 64 -> y < C ->
  (forall M', okm R C M' -> (forall a j, bitat M' a j = if Nat.eqb a i && Nat.leb y j && Nat.ltb j (y + n) then false else bitat M a j) -> Q M') ->
  wp (mzd_clear_bits M i y n) Q.
Proof.
  intros R C M i y n Q HM Hi Hn Hy HC HQ. unfold mzd_clear_bits. destruct (Nat.eqb_spec n 0); [lia|]. destruct (Nat.ltb_spec 64 n); [lia|]. cbn [orb]. cbv zeta.
  pose proof (wwidth_lt C y HC) as Hk. apply wp_bind, (wp_wget R C); auto. apply wp_bind, wp_shl; [lia|]. intros s Es.
  assert (W : wfr C (nth i (mrows M) [])) by (apply HM; exact Hi).
  apply wp_bind, (wp_wset R C); auto.
  { intros b Hb. rewrite tb_ldiff in Hb. apply andb_true_iff in Hb. destruct Hb as [Hb _]. apply W in Hb. exact Hb. }
  intros M' HM' E. destruct (Nat.ltb_spec (64 - y mod 64) n); [lia|]. apply wp_ok, HQ; [exact HM'|]. intros a j. rewrite E.
  destruct (Nat.eqb_spec a i) as [->|]; cbn [andb]; [|reflexivity].
  destruct (Nat.eqb_spec (j / 64) (y / 64)) as [Ej|Ej].
  - rewrite tb_ldiff, Es, tb_shr, tb_ffff. unfold bitat. rewrite rowbit_tb, Ej.
    destruct (Nat.leb_spec (y mod 64) (j mod 64)), (Nat.ltb_spec (j mod 64 - y mod 64 + (64 - n)) 64), (Nat.ltb_spec (j mod 64) 64), (Nat.leb_spec y j), (Nat.ltb_spec j (y + n));
      try lia; cbn [andb negb]; rewrite ?andb_false_r, ?andb_true_r; reflexivity.
  - destruct (Nat.leb_spec y j), (Nat.ltb_spec j (y + n)); try lia; reflexivity.
Qed.

Lemma xor_part_ok : forall R C M i y n v (Q : mzd -> Prop), okm R C M -> i < R -> y mod 64 + n <= 64 -> y < C ->
  (forall l, tb v l = true -> l < n /\ y + l < C) ->
  (forall M', okm R C M' -> (forall a j, bitat M' a j = if Nat.eqb a i && Nat.leb y j && Nat.ltb j (y + n) then xorb (bitat M a j) (tb v (j - y)) else bitat M a j) -> Q M') ->
  wp (mzd_xor_bits M i y n v) Q.
Proof.
  intros R C M i y n v Q HM Hi Hy HC Hv HQ. unfold mzd_xor_bits. cbv zeta.
  pose proof (wwidth_lt C y HC) as Hk. apply wp_bind, (wp_wget R C); auto. apply wp_bind, wp_shl; [lia|]. intros s Es.
  assert (W : wfr C (nth i (mrows M) [])) by (apply HM; exact Hi).
  apply wp_bind, (wp_wset R C); auto.
  { intros b Hb. rewrite tb_lxor, Es in Hb. destruct (tb (rw (nth i (mrows M) []) (y / 64)) b) eqn:Eb; [apply W in Eb; exact Eb|].
    rewrite xorb_false_l in Hb. apply andb_true_iff in Hb as [Hb H2]. apply andb_true_iff in Hb as [H1 H3].
    apply Nat.leb_le in H1. apply Nat.ltb_lt in H2. apply Hv in H3. lia. }
  intros M' HM' E. destruct (Nat.ltb_spec (64 - y mod 64) n); [lia|]. apply wp_ok, HQ; [exact HM'|]. intros a j. rewrite E.
  destruct (Nat.eqb_spec a i) as [->|]; cbn [andb]; [|reflexivity].
  destruct (Nat.eqb_spec (j / 64) (y / 64)) as [Ej|Ej].
  - rewrite tb_lxor, Es. unfold bitat. rewrite rowbit_tb, Ej.
    destruct (Nat.leb_spec (y mod 64) (j mod 64)), (Nat.leb_spec y j); try lia; cbn [andb]; [|rewrite xorb_false_r; reflexivity].
    replace (j mod 64 - y mod 64) with (j - y) by lia. destruct (Nat.ltb_spec (j mod 64) 64); [|lia]. rewrite andb_true_r.
    destruct (Nat.ltb_spec j (y + n)); [reflexivity|]. destruct (tb v (j - y)) eqn:Eb; [apply Hv in Eb; lia|]. rewrite xorb_false_r. reflexivity.
  - destruct (Nat.leb_spec y j), (Nat.ltb_spec j (y + n)); try lia; reflexivity.
Qed.

Lemma read_part_ok : forall R C M i y n (Q : N -> Prop), okm R C M -> i < R -> 1 <= n -> y mod 64 + n <= 64 -> y < C ->
  (forall v, (forall l, tb v l = Nat.ltb l n && bitat M i (y + l)) -> Q v) -> wp (mzd_read_bits M i y n) Q.
Proof.
  intros R C M i y n Q HM Hi Hn Hy HC HQ. unfold mzd_read_bits. cbv zeta. pose proof (wwidth_lt C y HC) as Hk.
  destruct (Nat.leb_spec (y mod 64 + n) 64); [|lia]. apply wp_bind, wp_bind, (wp_wget R C); auto. apply wp_shl; [lia|]. intros t Et.
  apply wp_shr; [lia|]. intros v Ev. apply HQ. intros l. rewrite Ev, Et. unfold bitat. rewrite rowbit_tb.
  destruct (Nat.leb_spec (64 - (y mod 64 + n)) (l + (64 - n))); [|lia].
  destruct (Nat.ltb_spec (l + (64 - n)) 64), (Nat.ltb_spec l n); try lia; cbn [andb]; rewrite ?andb_true_r, ?andb_false_r; auto.
  replace ((y + l) / 64) with (y / 64) by lia. f_equal. lia.
Qed.

Definition rowsame (i : nat) (M0 : mzd) (g : nat -> bool) (M : mzd) : Prop :=
  forall a j, bitat M a j = if Nat.eqb a i then g j else bitat M0 a j.

Lemma compress_row_ok : forall R C M i r1 n1 r2 (Q : mzd -> Prop), okm R C M -> i < R -> r1 < n1 -> n1 mod 64 = 0 -> n1 + r2 <= C -> n1 < C ->
  (forall j, r1 <= j -> j < n1 -> bitat M i j = false) -> (forall j, n1 + r2 <= j -> bitat M i j = false) ->
  (forall M', okm R C M' -> rowsame i M (fun j => if Nat.ltb j r1 then bitat M i j else if Nat.ltb j (r1 + r2) then bitat M i (j + (n1 - r1)) else false) M' -> Q M') ->
  wp (compress_row M i r1 n1 r2) Q.
Proof.
  intros R C M i r1 n1 r2 Q HM Hi Hr Hn HC HnC Z1 Z2 HQ. unfold compress_row. cbv zeta. set (f := bitat M i) in *. set (d := n1 - r1) in *.
  set (rest := 64 - r1 mod 64). assert (Hrest : 1 <= rest /\ rest <= 64) by (unfold rest; lia).
  assert (Hj0 : (r1 + rest) mod 64 = 0 /\ r1 + rest <= n1) by (unfold rest; lia).
  assert (HF : forall j, C <= j -> f j = false). { intros j Hj. destruct (f j) eqn:E; [|reflexivity]. apply (bitat_in R C M i j HM Hi) in E. lia. }
  set (G := fun J j => if Nat.ltb j r1 then f j else if Nat.ltb j J then f (j + d) else f j).
  apply wp_bind, (read_part_ok R C); [exact HM|exact Hi|lia|lia|exact HnC|]. intros v Ev.
  apply wp_bind, (clear_part_ok R C); [exact HM|exact Hi|lia|unfold rest; lia|lia|]. intros M1 HM1 E1.
  apply wp_bind, (xor_part_ok R C); [exact HM1|exact Hi|unfold rest; lia|lia| |].
  { intros l Hl. rewrite Ev in Hl. apply andb_true_iff in Hl as [H1 H2]. apply Nat.ltb_lt in H1. split; [exact H1|lia]. }
  intros M2 HM2 E2.
  assert (S2 : rowsame i M (G (r1 + rest)) M2).
  { intros a j. rewrite E2, !E1. destruct (Nat.eqb_spec a i) as [->|]; cbn [andb]; [|reflexivity]. unfold G.
    destruct (Nat.leb_spec r1 j), (Nat.ltb_spec j (r1 + rest)), (Nat.ltb_spec j r1); try lia; cbn [andb]; try reflexivity.
    cbn [xorb]. rewrite Ev. destruct (Nat.ltb_spec (j - r1) rest); [|lia]. cbn [andb]. fold f. destruct (f (n1 + (j - r1))) eqn:E; f_equal.
    - symmetry. rewrite <- E. f_equal. lia.
    - symmetry. rewrite <- E. f_equal. lia. }
  clear v Ev M1 HM1 E1 E2. apply wp_bind.
  apply (wp_for_up _ (fun t M' => okm R C M' /\ rowsame i M (G (r1 + rest + 64 * t)) M')).
  - lia.
  - split; [exact HM2|]. rewrite Nat.mul_0_r, Nat.add_0_r. exact S2.
  - intros t M' _ Ht [HM' S']. assert (HJ : r1 + rest + 64 * t + 64 <= r1 + r2) by lia.
    assert (Hbit : forall k b, k < wwidth C -> b < 64 -> tb (rw (nth i (mrows M') []) k) b = G (r1 + rest + 64 * t) (64 * k + b)).
    { intros k b Hk Hb. specialize (S' i (64 * k + b)). rewrite Nat.eqb_refl in S'. rewrite <- S'. unfold bitat. rewrite rowbit_tb. f_equal; [f_equal|]; lia. }
    assert (W : wfr C (nth i (mrows M') [])) by (apply HM'; exact Hi).
    assert (HB : (n1 + (r1 + rest) - r1) / 64 + t < wwidth C) by (pose proof (wwidth_lt C (n1 + (r1 + rest) - r1 + 64 * t) ltac:(lia)); lia).
    assert (Hend : forall x, (forall b, tb x b = Nat.ltb b 64 && f (r1 + rest + 64 * t + b + d)) ->
       wp (wset M' i ((r1 + rest + 64 * t) / 64) x) (fun M' => okm R C M' /\ rowsame i M (G (r1 + rest + 64 * S t)) M')).
    { intros x Ex. apply (wp_wset R C); [exact HM'|exact Hi|apply wwidth_lt; lia| |].
      - intros b Hb. rewrite Ex in Hb. apply andb_true_iff in Hb as [H1 H2]. apply Nat.ltb_lt in H1. split; [exact H1|]. lia.
      - intros M3 HM3 E3. split; [exact HM3|]. intros a j. rewrite E3, S'. destruct (Nat.eqb_spec a i) as [->|]; cbn [andb]; [|reflexivity]. unfold G.
        destruct (Nat.eqb_spec (j / 64) ((r1 + rest + 64 * t) / 64)) as [Ej|Ej].
        + rewrite Ex. destruct (Nat.ltb_spec (j mod 64) 64), (Nat.ltb_spec j r1), (Nat.ltb_spec j (r1 + rest + 64 * S t)); try lia. cbn [andb]. f_equal. lia.
        + destruct (Nat.ltb_spec j r1), (Nat.ltb_spec j (r1 + rest + 64 * t)), (Nat.ltb_spec j (r1 + rest + 64 * S t)); try lia; reflexivity. }
    apply wp_bind. destruct (Nat.eqb_spec (rest mod 64) 0) as [Er|Er].
    + apply (wp_wget R C); auto. apply Hend. intros b. destruct (Nat.ltb_spec b 64) as [Hb|Hb]; cbn [andb]; [|apply (wfr_tb C); auto; lia].
      rewrite Hbit by assumption. unfold G. destruct (Nat.ltb_spec (64 * ((n1 + (r1 + rest) - r1) / 64 + t) + b) r1); [lia|].
      destruct (Nat.ltb_spec (64 * ((n1 + (r1 + rest) - r1) / 64 + t) + b) (r1 + rest + 64 * t)); [lia|]. f_equal. lia.
    + assert (HB2 : (n1 + (r1 + rest) - r1) / 64 + t + 1 < wwidth C) by (pose proof (wwidth_lt C (n1 + (r1 + rest) - r1 + 64 * t + 63) ltac:(lia)); lia).
      apply wp_bind, (wp_wget R C); auto. apply wp_bind, (wp_wget R C); auto. apply wp_bind, wp_shr; [lia|]. intros x Ex. apply wp_bind, wp_shl; [lia|]. intros y Ey.
      apply wp_ok. apply Hend. intros b. rewrite tb_lor, Ex, Ey.
      destruct (Nat.ltb_spec b 64) as [Hb|Hb]; cbn [andb]; [|rewrite !(wfr_tb C) by (auto; lia); rewrite andb_false_r; reflexivity].
      destruct (Nat.leb_spec (64 - rest) b) as [G1|G1]; cbn [andb orb].
      * rewrite (wfr_tb C) by (auto; lia). cbn [orb]. rewrite andb_true_r, Hbit by (assumption || lia). unfold G.
        destruct (Nat.ltb_spec (64 * ((n1 + (r1 + rest) - r1) / 64 + t + 1) + (b - (64 - rest))) r1); [lia|].
        destruct (Nat.ltb_spec (64 * ((n1 + (r1 + rest) - r1) / 64 + t + 1) + (b - (64 - rest))) (r1 + rest + 64 * t)); [lia|]. f_equal. lia.
      * rewrite orb_false_r, Hbit by (assumption || lia). unfold G.
        destruct (Nat.ltb_spec (64 * ((n1 + (r1 + rest) - r1) / 64 + t) + (b + rest)) r1); [lia|].
        destruct (Nat.ltb_spec (64 * ((n1 + (r1 + rest) - r1) / 64 + t) + (b + rest)) (r1 + rest + 64 * t)); [lia|]. f_equal. lia.
  - intros M3 [HM3 S3]. set (w := (r1 + r2 - (r1 + rest)) / 64) in *. set (J := r1 + rest + 64 * w) in *.
    assert (HJ64 : J mod 64 = 0) by (unfold J; lia). assert (HJ1 : r1 + r2 < J + 64) by (unfold J, w; lia).
    assert (HJr : r1 <= J) by (unfold J; lia). clearbody J. clear w. clear S2 HM2 M2.
    apply wp_bind.
    assert (Hmid : forall Q' : mzd -> Prop, (forall J' M', J' mod 64 = 0 -> r1 + r2 <= J' -> okm R C M' -> rowsame i M (G J') M' -> Q' M') ->
      wp (if Nat.ltb J (r1 + r2) then tmp <- mzd_read_bits M3 i (n1 + J - r1) (r1 + r2 - J) ;; wset M3 i (J / 64) tmp else Ok M3) Q').
    { intros Q' HQ'. destruct (Nat.ltb_spec J (r1 + r2)) as [HJ|HJ]; [|apply wp_ok, (HQ' J); auto].
      apply wp_bind, (wp_read_bits R C); [exact HM3|exact Hi|lia|lia|lia|]. intros v Ev.
      apply (wp_wset R C); [exact HM3|exact Hi|apply wwidth_lt; lia| |].
      - intros b Hb. rewrite Ev in Hb. apply andb_true_iff in Hb as [H1 _]. apply Nat.ltb_lt in H1. lia.
      - intros M4 HM4 E4. apply (HQ' (J + 64)); [lia|lia|exact HM4|]. intros a j. rewrite E4, S3. destruct (Nat.eqb_spec a i) as [->|]; cbn [andb]; [|reflexivity]. unfold G.
        destruct (Nat.eqb_spec (j / 64) (J / 64)) as [Ej|Ej].
        + rewrite Ev, S3, Nat.eqb_refl. unfold G. destruct (Nat.ltb_spec j r1), (Nat.ltb_spec j (J + 64)); try lia.
          destruct (Nat.ltb_spec (n1 + J - r1 + j mod 64) r1), (Nat.ltb_spec (n1 + J - r1 + j mod 64) J); try lia.
          destruct (Nat.ltb_spec (j mod 64) (r1 + r2 - J)); cbn [andb]; [f_equal; lia|]. symmetry. apply Z2. lia.
        + destruct (Nat.ltb_spec j r1), (Nat.ltb_spec j J), (Nat.ltb_spec j (J + 64)); try lia; reflexivity. }
    apply Hmid. clear Hmid. intros J' M4 HJ' HJ2 HM4 S4. clear M3 HM3 S3 HJ64 HJ1 HJr J.
    apply wp_bind, (clear_part_ok R C); [exact HM4|exact Hi|lia|lia|lia|]. intros M5 HM5 E5.
    set (e := r1 + r2 + (64 - (r1 + r2) mod 64)). assert (He : e mod 64 = 0 /\ r1 + r2 < e) by (unfold e; lia).
    apply (wp_for_up _ (fun t M' => okm R C M' /\ rowsame i M (fun j => if Nat.leb (r1 + r2) j && Nat.ltb j (e + 64 * t) then false else G J' j) M')).
    + lia.
    + split; [exact HM5|]. intros a j. rewrite E5, S4. destruct (Nat.eqb_spec a i) as [->|]; cbn [andb]; [|reflexivity]. rewrite Nat.mul_0_r, Nat.add_0_r. reflexivity.
    + intros t M' _ Ht [HM' S']. apply (wp_wset R C); [exact HM'|exact Hi|apply wwidth_lt; lia| |].
      * intros b Hb. rewrite tb_0 in Hb. discriminate.
      * intros M6 HM6 E6. split; [exact HM6|]. intros a j. rewrite E6, S'. destruct (Nat.eqb_spec a i) as [->|]; cbn [andb]; [|reflexivity]. rewrite tb_0.
        destruct (Nat.eqb_spec (j / 64) ((e + 64 * t) / 64)) as [Ej|Ej].
        -- destruct (Nat.leb_spec (r1 + r2) j), (Nat.ltb_spec j (e + 64 * S t)); try lia. reflexivity.
        -- destruct (Nat.leb_spec (r1 + r2) j), (Nat.ltb_spec j (e + 64 * S t)), (Nat.ltb_spec j (e + 64 * t)); try lia; reflexivity.
    + intros M6 [HM6 S6]. apply HQ; [exact HM6|]. intros a j. rewrite S6. destruct (Nat.eqb_spec a i) as [->|]; [|reflexivity]. unfold G.
      destruct (Nat.leb_spec (r1 + r2) j) as [H1|H1]; cbn [andb].
      * destruct (Nat.ltb_spec j r1), (Nat.ltb_spec j (r1 + r2)); try lia.
        destruct (Nat.ltb_spec j (e + 64 * ((n1 + r2 - e + 63) / 64))); [reflexivity|].
        destruct (Nat.ltb_spec j J'); [apply Z2; lia|apply Z2; lia].
      * destruct (Nat.ltb_spec j r1); [reflexivity|]. destruct (Nat.ltb_spec j J'), (Nat.ltb_spec j (r1 + r2)); try lia. reflexivity.
Qed.

(** What a row becomes when T columns from n1 on are moved to r1 *)
Definition moved_left (r1 n1 T : nat) (f : nat -> bool) (j : nat) : bool :=
  if Nat.ltb j r1 then f j else if Nat.ltb j (r1 + T) then f (j + (n1 - r1)) else if Nat.ltb j (n1 + T) then false else f j.

Lemma compress_l_ok : forall R C M r1 n1 r2 (Q : mzd -> Prop), okm R C M -> r1 <= n1 -> n1 mod 64 = 0 -> n1 < C -> n1 + r2 <= C -> r1 + r2 <= R ->
  (forall i j, r1 <= i -> i < R -> r1 <= j -> j < n1 -> bitat M i j = false) ->
  (forall i j, r1 + r2 <= i -> i < R -> n1 + r2 <= j -> j < C -> bitat M i j = false) ->
  (forall M', okm R C M' -> (forall i j, i < R -> bitat M' i j =
     if Nat.ltb i r1 then bitat M i j else moved_left r1 n1 (Nat.min (i - r1 + 1) r2) (bitat M i) j) -> Q M') ->
  wp (compress_l M r1 n1 r2) Q.
Proof.
  intros R C M r1 n1 r2 Q HM Hr Hn HnC HC HR Z1 Z2 HQ. unfold compress_l.
  assert (Z3 : forall i j, r1 + r2 <= i -> i < R -> n1 + r2 <= j -> bitat M i j = false).
  { intros i j H1 H2 H3. destruct (bitat M i j) eqn:E; [|reflexivity]. pose proof (bitat_in R C M i j HM H2 E). rewrite <- E. apply Z2; assumption. }
  destruct (Nat.eqb_spec r1 n1) as [->|Hne].
  - apply wp_ok, HQ; [exact HM|]. intros i j Hi. destruct (Nat.ltb_spec i n1); [reflexivity|]. unfold moved_left. rewrite Nat.sub_diag, Nat.add_0_r.
    destruct (Nat.ltb_spec j n1), (Nat.ltb_spec j (n1 + Nat.min (i - n1 + 1) r2)); try lia; reflexivity.
  - apply wp_bind.
    apply (wp_for_up _ (fun t M' => okm R C M' /\ forall i j, bitat M' i j =
      if Nat.leb r1 i && Nat.ltb i (r1 + r2) then moved_left r1 n1 (Nat.min (i - r1 + 1) t) (bitat M i) j else bitat M i j)).
    + lia.
    + split; [exact HM|]. intros i j. destruct (Nat.leb_spec r1 i), (Nat.ltb_spec i (r1 + r2)); cbn [andb]; try reflexivity.
      rewrite Nat.min_0_r. unfold moved_left. rewrite !Nat.add_0_r.
      destruct (Nat.ltb_spec j r1); [reflexivity|]. destruct (Nat.ltb_spec j n1); [|reflexivity]. apply Z1; lia.
    + intros t M' _ Ht [HM' E']. apply (col_swap_in_rows_ok R C); [exact HM'|lia|lia|exact HR|].
      intros M2 HM2 E2. split; [exact HM2|]. intros i j. rewrite E2, !E'.
      destruct (Nat.leb_spec r1 i) as [G1|G1], (Nat.ltb_spec i (r1 + r2)) as [G2|G2], (Nat.leb_spec (r1 + t) i) as [G3|G3]; try lia; cbn [andb]; try reflexivity.
      * rewrite (Nat.min_r _ t) by lia. rewrite (Nat.min_r _ (S t)) by lia. unfold moved_left, tr.
        destruct (Nat.eqb_spec j (r1 + t)) as [->|N1]; [|destruct (Nat.eqb_spec j (n1 + t)) as [->|N2]].
        -- destruct (Nat.ltb_spec (n1 + t) r1), (Nat.ltb_spec (n1 + t) (r1 + t)), (Nat.ltb_spec (n1 + t) (n1 + t)), (Nat.ltb_spec (r1 + t) r1), (Nat.ltb_spec (r1 + t) (r1 + S t)); try lia.
           f_equal. lia.
        -- destruct (Nat.ltb_spec (r1 + t) r1), (Nat.ltb_spec (r1 + t) (r1 + t)), (Nat.ltb_spec (r1 + t) (n1 + t)), (Nat.ltb_spec (n1 + t) r1), (Nat.ltb_spec (n1 + t) (r1 + S t)), (Nat.ltb_spec (n1 + t) (n1 + S t)); try lia; try reflexivity.
        -- destruct (Nat.ltb_spec j r1), (Nat.ltb_spec j (r1 + t)), (Nat.ltb_spec j (r1 + S t)), (Nat.ltb_spec j (n1 + t)), (Nat.ltb_spec j (n1 + S t)); try lia; reflexivity.
      * rewrite (Nat.min_l _ t) by lia. rewrite (Nat.min_l _ (S t)) by lia. reflexivity.
    + intros M1 [HM1 E1]. pose proof HM1 as (M1r & _). rewrite M1r.
      apply (wp_for_up _ (fun l M' => okm R C M' /\ forall i j, bitat M' i j =
        if Nat.leb r1 i && Nat.ltb i l then moved_left r1 n1 (Nat.min (i - r1 + 1) r2) (bitat M i) j else bitat M i j)).
      * exact HR.
      * split; [exact HM1|exact E1].
      * intros l M' Hl1 Hl2 [HM' E'].
        assert (El : forall j, bitat M' l j = bitat M l j). { intros j. rewrite E'. destruct (Nat.ltb_spec l l); [lia|]. rewrite andb_false_r. reflexivity. }
        apply (compress_row_ok R C); [exact HM'|exact Hl2|lia|exact Hn|exact HC|exact HnC| | |].
        -- intros j H1 H2. rewrite El. apply Z1; lia.
        -- intros j H1. rewrite El. apply Z3; lia.
        -- intros M2 HM2 S2. split; [exact HM2|]. intros i j. rewrite S2. destruct (Nat.eqb_spec i l) as [->|Hil].
           ++ destruct (Nat.leb_spec r1 l), (Nat.ltb_spec l (S l)); try lia. cbn [andb]. rewrite !El. rewrite Nat.min_r by lia. unfold moved_left.
              destruct (Nat.ltb_spec j r1), (Nat.ltb_spec j (r1 + r2)), (Nat.ltb_spec j (n1 + r2)); try lia; try reflexivity. symmetry. apply Z3; lia.
           ++ rewrite E'. destruct (Nat.ltb_spec i l), (Nat.ltb_spec i (S l)); try lia; reflexivity.
      * intros M2 [HM2 E2]. apply HQ; [exact HM2|]. intros i j Hi. rewrite E2.
        destruct (Nat.leb_spec r1 i), (Nat.ltb_spec i R), (Nat.ltb_spec i r1); try lia; reflexivity.
Qed.

Lemma lt_0_wwidth_last : forall C, 0 < C -> forall k, k < wwidth C -> 64 * k < C.
Proof. intros C HC k Hk. unfold wwidth in Hk. lia. Qed.

Lemma first_zero_row_ok : forall R C M (Q : nat -> Prop), okm R C M -> 0 < C ->
  (forall n, n <= R -> (forall i j, n <= i -> i < R -> bitat M i j = false) ->
     (n <> 0 -> exists j, j < C /\ bitat M (n - 1) j = true) -> Q n) -> wp (mzd_first_zero_row M) Q.
Proof.
  intros R C M Q HM HC HQ. unfold mzd_first_zero_row. pose proof HM as (M1 & M2 & _). rewrite M1, M2, (okm_width R C M HM). cbv zeta.
  pose proof (wwidth_pos C HC) as Hw. apply wp_bind.
  apply (wp_for_ret _ _ (fun l _ => forall i j, R - l <= i -> i < R -> bitat M i j = false)).
  - lia.
  - intros i j H1 H2. lia.
  - intros l _ _ Hl HI. destruct (Nat.eqb_spec (wwidth C) 0); [lia|]. set (i := R - 1 - l) in *. assert (Hi : i < R) by lia.
    assert (W : wfr C (nth i (mrows M) [])) by (apply HM; exact Hi).
    apply wp_bind, (wp_wget R C); [exact HM|exact Hi|lia|]. apply wp_bind.
    apply (wp_for_up _ (fun k tmp => (tmp = 0%N -> forall b k', k' < k -> tb (rw (nth i (mrows M) []) k') b = false) /\
      forall b, tb tmp b = true -> exists k', tb (rw (nth i (mrows M) []) k') b = true)).
    + lia.
    + split; [intros E b k' Hk'; replace k' with 0 by lia; rewrite E; apply tb_0|]. intros b Hb. exists 0. exact Hb.
    + intros k tmp Hk1 Hk2 [HI' HJ']. apply wp_bind, (wp_wget R C); [exact HM|exact Hi|lia|]. apply wp_ok. split.
      * intros E b k' Hk'. apply N.lor_eq_0_iff in E as [E1 E2]. destruct (Nat.eq_dec k' k) as [->|]; [rewrite E2; apply tb_0|apply HI'; [exact E1|lia]].
      * intros b Hb. rewrite tb_lor in Hb. apply orb_true_iff in Hb as [Hb|Hb]; [apply HJ', Hb|exists k; exact Hb].
    + intros tmp [HT HN]. apply wp_bind, (wp_wget R C); [exact HM|exact Hi|lia|]. apply wp_ok.
      destruct (N.eqb_spec (N.lor tmp (N.land (rw (nth i (mrows M) []) (wwidth C - 1)) (left_bitmask (C mod 64)))) 0) as [E|E].
      * intros x j H1 H2. destruct (Nat.eq_dec x i) as [->|]; [|apply HI; lia].
        apply N.lor_eq_0_iff in E as [E1 E2]. unfold bitat. rewrite rowbit_tb.
        destruct (Nat.lt_ge_cases (j / 64) (wwidth C - 1)) as [G|G]; [apply HT; [exact E1|lia]|].
        destruct (Nat.eq_dec (j / 64) (wwidth C - 1)) as [G'|G'].
        -- assert (Hz : tb (N.land (rw (nth i (mrows M) []) (wwidth C - 1)) (left_bitmask (C mod 64))) (j mod 64) = false) by (rewrite E2; apply tb_0).
           rewrite tb_land in Hz. rewrite G'. destruct (tb (rw (nth i (mrows M) []) (wwidth C - 1)) (j mod 64)) eqn:Eb; [|reflexivity]. exfalso.
           pose proof (proj2 W _ _ Eb) as [Hb1 Hb2]. cbn [andb] in Hz. rewrite tb_left, Nat.mod_mod in Hz by lia. destruct (Nat.eqb_spec (C mod 64) 0).
           ++ destruct (Nat.ltb_spec (j mod 64) 64); [discriminate|lia].
           ++ destruct (Nat.ltb_spec (j mod 64) (C mod 64)); [discriminate|]. unfold wwidth in *. lia.
        -- destruct (tb (rw (nth i (mrows M) []) (j / 64)) (j mod 64)) eqn:Eb; [|reflexivity]. exfalso. apply W in Eb. unfold wwidth in *. lia.
      * apply wp_ok, HQ; [lia|intros x j H1 H2; apply HI; lia|]. intros _. replace (i + 1 - 1) with i by lia.
        assert (Hk : exists k b, tb (rw (nth i (mrows M) []) k) b = true).
        { pose proof (N.bit_log2 _ E) as Hb. rewrite <- (N2Nat.id (N.log2 _)) in Hb. fold (tb (N.lor tmp (N.land (rw (nth i (mrows M) []) (wwidth C - 1)) (left_bitmask (C mod 64)))) (N.to_nat (N.log2 (N.lor tmp (N.land (rw (nth i (mrows M) []) (wwidth C - 1)) (left_bitmask (C mod 64))))))) in Hb.
          rewrite tb_lor in Hb. apply orb_true_iff in Hb as [Hb|Hb]; [apply HN in Hb as [k' Hk']; eauto|].
          rewrite tb_land in Hb. apply andb_true_iff in Hb as [Hb _]. eauto. }
        destruct Hk as (k & b & Hk). pose proof (proj2 W k b Hk) as [H1 H2]. exists (64 * k + b). split; [exact H2|]. unfold bitat. rewrite rowbit_rw by exact H1. exact Hk.
  - intros _ HI. apply wp_ok, HQ; [lia|intros i j _ Hi; apply HI; lia|lia].
Qed.
