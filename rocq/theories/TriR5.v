(** Inversion of triangular matrices, third part: adding rows of the tables, mzd_trtri_upper_russian. *)
From Coq Require Import Arith NArith ZArith List Bool Lia ZifyNat.
From Verif Require Import Base Spec LinAlg ModelM4ri SpecM4ri M4ri1 M4ri3 M4ri4 ModelM4ri2 SpecM4ri2 ModelTri ModelPle SpecTri ModelTriR TriR1 TriR3 TriR4.
Import ListNotations.
#[local] Ltac Zify.zify_post_hook ::= Z.to_euclidean_division_equations.

(** ** Rows of tables *)
Lemma ple_row_rw : forall w T x y, rw (ple_row w T x) y = if Nat.ltb y w then tw (stride w) T x y else 0%N.
Proof.
  intros w T x y. unfold rw, ple_row, tw. generalize (stride w). intros s.
  assert (F : forall (l : list N) m y, nth y (firstn m l) 0%N = if Nat.ltb y m then nth y l 0%N else 0%N).
  { clear. induction l as [|a l IH]; intros m y; [rewrite firstn_nil; destruct y; cbn [nth]; destruct (Nat.ltb _ m); reflexivity|].
    destruct m; [destruct y; reflexivity|]. destruct y; [reflexivity|]. cbn [firstn nth]. rewrite IH. reflexivity. }
  assert (G : forall (l : list N) m y, nth y (skipn m l) 0%N = nth (m + y) l 0%N).
  { clear. induction l as [|a l IH]; intros m y; [rewrite skipn_nil; destruct y, m; reflexivity|]. destruct m; [reflexivity|]. cbn [skipn]. rewrite IH. reflexivity. }
  rewrite F, G. reflexivity.
Qed.
Lemma ple_row_wf : forall C K T x, ftab C K T -> x < 2 ^ K -> wfr C (ple_row (wwidth C) T x).
Proof.
  intros C K T x (HL & HW & _) Hx. split.
  - unfold ple_row. rewrite firstn_length, skipn_length, HL.
    assert (Sw : wwidth C <= stride (wwidth C)) by (unfold stride; destruct (Nat.ltb (wwidth C) 1 || Nat.even (wwidth C)); lia).
    revert Sw. generalize (stride (wwidth C)) (wwidth C). intros s w Sw. generalize dependent (2 ^ K). intros P; intros. nia.
  - intros y b. rewrite ple_row_rw. destruct (Nat.ltb_spec y (wwidth C)); [apply HW; assumption|rewrite tb_0; discriminate].
Qed.
Lemma ple_row_bit : forall C T x j, j < C -> rowbit (ple_row (wwidth C) T x) j = tb (tw (stride (wwidth C)) T x (j / 64)) (j mod 64).
Proof. intros C T x j Hj. rewrite rowbit_tb, ple_row_rw. pose proof (wwidth_lt C j Hj). destruct (Nat.ltb_spec (j / 64) (wwidth C)); [reflexivity|lia]. Qed.

(** ** One table after the other *)
Definition stp (c k : nat) (g : fmat) (f : nat -> bool) (j : nat) : bool :=
  xorb (f j) (xsum k (fun l => f (c + l) && xorb (g l j) (Nat.eqb j (c + l)))).
Fixpoint fin (r k sh : nat) (gs : list fmat) (f : nat -> bool) : nat -> bool :=
  match gs with [] => f | g :: gs => fin r k (sh + k) gs (stp (r + sh) k g f) end.
Fixpoint ptabs (C K r k sh : nat) (ts : list ple_table) (gs : list fmat) : Prop :=
  match ts, gs with
  | [], [] => True
  | t :: ts, g :: gs => pletab C K r (r + sh) k g t /\ ptabs C K r k (sh + k) ts gs
  | _, _ => False
  end.

Lemma ple_rows_ok : forall C K r k B0, 1 <= k -> k <= K -> k < 64 -> B0 <= 64 -> r + B0 <= C ->
  forall ts gs sh f bits (Q : list (list N) -> Prop), ptabs C K r k sh ts gs -> sh + k * length ts <= B0 ->
  (forall b, b < B0 -> tb bits b = f (r + b)) ->
  (forall rows, (forall t, In t rows -> wfr C t) ->
     (forall j, 64 * (r / 64) <= j -> j < C -> xorb (f j) (fxor (map (fun t => rowbit t j) rows)) = fin r k sh gs f j) -> Q rows) ->
  wp (ple_rows (wwidth C) sh k bits ts) Q.
Proof.
  intros C K r k B0 Hk1 HkK Hk HB0 HrC. induction ts as [|[[T E] B] ts IH]; intros gs sh f bits Q HP Hl Hb HQ.
  - destruct gs; [|contradiction]. apply wp_ok, HQ; [intros t []|]. intros j _ _. cbn [map fin]. unfold fxor. cbn [fold_right]. apply xorb_false_r.
  - destruct gs as [|g gs]; [contradiction|]. cbn [ptabs length] in HP, Hl. destruct HP as ((HT & LE & LB & HS) & HP). cbn [ple_rows].
    assert (HP2 : 2 ^ k <= 2 ^ K) by (apply Nat.pow_le_mono_r; lia).
    set (id := N.land (N.shiftr bits (N.of_nat sh)) (left_bitmask k)).
    assert (Hid : forall l, tb id l = Nat.ltb l k && tb bits (l + sh)).
    { intros l. unfold id. rewrite tb_land, tb_shr, tb_left by lia. destruct (Nat.eqb_spec (k mod 64) 0); [lia|]. apply andb_comm. }
    assert (Hlt : N.to_nat id < 2 ^ k).
    { assert (P : N.of_nat (2 ^ k) = (2 ^ N.of_nat k)%N) by (rewrite Nat2N.inj_pow; reflexivity).
      enough (id < 2 ^ N.of_nat k)%N by lia. apply tb_lt. intros b Hb'. rewrite Hid. destruct (Nat.ltb_spec b k); [lia|reflexivity]. }
    destruct (gord_surj k _ Hlt) as (x & Hx & Ex). destruct (HS x Hx) as (S1 & S2 & S3). rewrite Ex in S1.
    apply wp_bind, (wp_aget _ _ _ 0); [lia|]. rewrite S1. apply wp_bind, (wp_aget _ _ _ 0%N); [lia|].
    assert (HH : forall j, hsum (r + sh) k g x j = xsum k (fun l => f (r + sh + l) && xorb (g l j) (Nat.eqb j (r + sh + l)))).
    { intros j. apply xsum_ext. intros l Hl'. f_equal. rewrite Ex, N2Nat.id, Hid. destruct (Nat.ltb_spec l k); [|lia]. cbn [andb]. rewrite Hb by lia. f_equal. lia. }
    apply wp_bind. apply (IH gs (sh + k) (stp (r + sh) k g f)); [exact HP|lia| |].
    + intros b Hb'. rewrite tb_lxor, Hb, S3, HH by lia. reflexivity.
    + intros rows HW HR. apply wp_ok, HQ.
      * intros t [<-|Ht]; [apply (ple_row_wf C K); [exact HT|lia]|apply HW; exact Ht].
      * intros j Hj HjC. cbn [map fin]. rewrite <- HR by assumption. unfold fxor. cbn [fold_right]. rewrite ple_row_bit, S2, HH by assumption.
        unfold stp. symmetry. apply xorb_assoc.
Qed.

Section Rows.
Variables (n : nat) (U : fmat).

Lemma stp_rowst : forall j c k g f f', rowst n U j c f -> c + k <= n -> (forall l, l < k -> rowst n U (c + l) (c + k) (g l)) ->
  (forall y, y < n -> f' y = stp c k g f y) -> rowst n U j (c + k) f'.
Proof.
  intros j c k g f f' Hf Hc Hg E. apply (advance n U j c k f g); [exact Hf|exact Hc|exact Hg|]. intros y Hy. rewrite E by exact Hy. unfold stp.
  destruct (Nat.ltb_spec y c).
  - rewrite xsum_false; [apply xorb_false_r|]. intros l Hl. destruct (Hg l Hl) as (_ & _ & _ & Z & _). rewrite Z by lia.
    destruct (Nat.eqb_spec y (c + l)); [lia|]. apply andb_false_r.
  - rewrite (xsum_ext k _ (fun l => xorb (f (c + l) && g l y) (f (c + l) && Nat.eqb y (c + l)))).
    2:{ intros l _. destruct (f (c + l)); reflexivity. }
    rewrite xsum_xorb, <- xorb_assoc. f_equal. destruct (Nat.ltb_spec y (c + k)); cbn [andb].
    + rewrite (xsum_single k (y - c)); [replace (c + (y - c)) with y by lia; rewrite Nat.eqb_refl; apply andb_true_r|lia|].
      intros l Hl Hne. destruct (Nat.eqb_spec y (c + l)); [lia|apply andb_false_r].
    + apply xsum_false. intros l Hl. destruct (Nat.eqb_spec y (c + l)); [lia|apply andb_false_r].
Qed.

Fixpoint grows (r k sh : nat) (gs : list fmat) : Prop :=
  match gs with [] => True | g :: gs => (forall l, l < k -> rowst n U (r + sh + l) (r + sh + k) (g l)) /\ grows r k (sh + k) gs end.
Lemma fin_rowst : forall r k gs sh j f, rowst n U j (r + sh) f -> grows r k sh gs -> r + sh + k * length gs <= n ->
  rowst n U j (r + sh + k * length gs) (fin r k sh gs f).
Proof.
  intros r k. induction gs as [|g gs IH]; intros sh j f Hf Hg Hn; cbn [length fin] in *.
  - replace (r + sh + k * 0) with (r + sh) by lia. exact Hf.
  - destruct Hg as [G1 G2]. replace (r + sh + k * S (length gs)) with (r + (sh + k) + k * length gs) by lia. apply IH; [|exact G2|lia].
    rewrite Nat.add_assoc. apply (stp_rowst j (r + sh) k g f); [exact Hf|lia|exact G1|reflexivity].
Qed.
Lemma fin_left : forall r k gs sh f y, grows r k sh gs -> y < r -> fin r k sh gs f y = f y.
Proof.
  intros r k. induction gs as [|g gs IH]; intros sh f y Hg Hy; [reflexivity|]. cbn [fin]. destruct Hg as [G1 G2]. rewrite IH by assumption. unfold stp.
  rewrite xsum_false; [apply xorb_false_r|]. intros l Hl. destruct (G1 l Hl) as (_ & _ & _ & Z & _). rewrite Z by lia.
  destruct (Nat.eqb_spec y (r + sh + l)); [lia|]. apply andb_false_r.
Qed.

Lemma process_ple_4_ok : forall K r k A ts gs (Q : mzd -> Prop), 1 <= k -> k <= K -> 4 * k <= 63 -> r + 4 * k <= n -> st n U (pg r (r + 4 * k)) A ->
  length ts = 4 -> length gs = 4 -> ptabs n K r k 0 ts gs -> grows r k 0 gs ->
  (forall A', st n U (pg (r + 4 * k) (r + 4 * k)) A' -> Q A') -> wp (process_ple_4 A r k ts) Q.
Proof.
  intros K r k A ts gs Q Hk1 HkK Hk Hr HA Lt Lg HP HG HQ. unfold process_ple_4.
  apply (wp_for_up _ (fun t A => st n U (fun j => if Nat.ltb j t then r + 4 * k else pg r (r + 4 * k) j) A)).
  - lia.
  - apply (st_ext _ _ _ _ _ HA). intros j _. reflexivity.
  - clear A HA. intros i A _ Hi [HA HR]. apply wp_bind, (wp_read_bits n n); [exact HA|lia|lia|lia|lia|]. intros v Hv.
    rewrite (okm_width n n A HA).
    apply wp_bind. apply (ple_rows_ok n K r k (4 * k) Hk1 HkK ltac:(lia) ltac:(lia) Hr ts gs 0 (bitat A i)); [exact HP|rewrite Lt; lia| |].
    { intros b Hb. rewrite Hv. destruct (Nat.ltb_spec b (4 * k)); [reflexivity|lia]. }
    intros rows HW HF. apply wp_bind, (wp_aget_row n n); [exact HA|lia|]. apply wp_bind. apply (wp_combine n); [apply HA; lia|exact HW|].
    intros m Wm Em. apply wp_bind, wp_aset; [rewrite (proj1 (proj2 (proj2 HA))); lia|]. apply wp_ok. split; [apply okm_upd; [exact HA|lia|exact Wm]|].
    intros j Hj. specialize (HR j Hj) as Hj'. cbv beta in Hj'. destruct (Nat.eq_dec j i) as [->|Hne].
    + destruct (Nat.ltb_spec i (S i)); [|lia]. destruct (Nat.ltb_spec i i); [lia|]. unfold pg in Hj'. destruct (Nat.ltb_spec i r); [|lia].
      pose proof (fin_rowst r k gs 0 i (bitat A i)) as F. rewrite Lg, Nat.add_0_r in F. specialize (F Hj' HG ltac:(lia)). replace (r + k * 4) with (r + 4 * k) in F by lia.
      apply (rowst_ext n U _ _ _ _ F). intros y Hy. rewrite (bitat_upd n n) by (assumption || lia). rewrite Nat.eqb_refl. rewrite Em.
      change (rowbit (nth i (mrows A) []) y) with (bitat A i y). destruct (Nat.leb_spec (r / 64) (y / 64)).
      * apply HF; [lia|exact Hy].
      * symmetry. apply fin_left; [exact HG|lia].
    + apply (rowst_ext n U _ _ (bitat A j)).
      * destruct (Nat.ltb_spec j i), (Nat.ltb_spec j (S i)); try lia; exact Hj'.
      * intros y Hy. rewrite (bitat_upd n n) by (assumption || lia). destruct (Nat.eqb_spec j i); [lia|reflexivity].
  - intros A' HA'. apply HQ. apply (st_ext _ _ _ _ _ HA'). intros j Hj. unfold pg. destruct (Nat.ltb_spec j r), (Nat.ltb_spec j (r + 4 * k)); try lia; reflexivity.
Qed.

(** ** One table *)
Variables (K : nat) (beyond : option N).
Hypothesis HK : K <= 7.
Hypothesis HB : beyond <> None \/ Nat.odd (wwidth n) = true.
Definition tabok (t : ple_table) : Prop := let '(T, E, B) := t in ftab n K T /\ length E = 2 ^ K /\ length B = 2 ^ K.
Lemma pletab_ok : forall r c k g t, pletab n K r c k g t -> tabok t.
Proof. intros r c k g [[T E] B] (H1 & H2 & H3 & _). split; [exact H1|]. split; assumption. Qed.

(** Elimination within the rows c to c + k - 1 (from lo on), and the table of these rows *)
Lemma block_ok : forall A lo r c k t X (F : mzd -> ple_table -> res X) (Q : X -> Prop), 1 <= k -> k <= K -> lo <= c -> r <= c -> c / 64 <= r / 64 + 1 -> c + k <= n -> st n U (pg lo c) A -> tabok t ->
  (forall A' E t', st n U (pg lo (c + k)) A' -> okm k n E -> (forall l y, l < k -> y < n -> bitat E l y = bitat A' (c + l) y) ->
     pletab n K r c k (bitat E) t' -> (forall l, l < k -> rowst n U (c + l) (c + k) (bitat E l)) -> wp (F A' t') Q) ->
  wp (A <- trtri_sub A c lo k ;; E <- ple_to_e A c c k ;; t <- make_table_trtri beyond E 0 c k t r ;; F A t) Q.
Proof.
  intros A lo r c k t X F Q Hk1 HkK Hlo Hrc Hb Hc HA Ht HQ. apply wp_bind, (trtri_sub_ok n U); [exact Hlo|exact Hc|exact HA|]. clear A HA. intros A HA.
  assert (HR : forall l, l < k -> rowst n U (c + l) (c + k) (bitat A (c + l))).
  { intros l Hl. pose proof (proj2 HA (c + l) ltac:(lia)) as H. unfold pg in H. destruct (Nat.ltb_spec (c + l) lo); [lia|]. destruct (Nat.ltb_spec (c + l) (c + k)); [exact H|lia]. }
  apply wp_bind, (ple_to_e_ok n); [apply HA|exact Hc| |].
  { intros l y Hl Hy. destruct (HR l Hl) as (_ & _ & _ & Z & _). apply Z. exact Hy. }
  intros E HE EE. destruct t as [[T Ei] B]. destruct Ht as (HT & LE & LB).
  apply wp_bind, (make_table_trtri_ok n K r c k beyond E); [exact HE|exact Hk1|exact HkK|lia|exact Hc|exact Hrc|exact Hb| |exact HB|exact HT|exact LE|exact LB|].
  { intros l y Hl Hy. rewrite EE by lia. destruct (HR l Hl) as (_ & _ & _ & Z & _). apply Z. exact Hy. }
  intros t' Ht'. apply HQ with E; [exact HA|exact HE|exact EE|exact Ht'|]. intros l Hl. apply (rowst_ext n U _ _ _ _ (HR l Hl)). intros y Hy. apply EE; assumption.
Qed.

Lemma trtri_step_ok : forall A r k t (Q : mzd * ple_table -> Prop), 1 <= k -> k <= K -> r + k <= n -> st n U (pg r r) A -> tabok t ->
  (forall A' t', st n U (pg (r + k) (r + k)) A' -> tabok t' -> Q (A', t')) -> wp (trtri_step beyond A r k t) Q.
Proof.
  intros A r k t Q Hk1 HkK Hr HA Ht HQ. unfold trtri_step.
  apply (block_ok A r r r k t _ (fun A t => let '(T, E, _) := t in A <- mzd_process_rows A 0 r r k (map (ple_row (mwidth A) T) (seq 0 (length E)), E) ;; Ok (A, t))); [exact Hk1|exact HkK|lia|lia|lia|exact Hr|exact HA|exact Ht|].
  clear A HA t Ht. intros A E t HA HE EE Ht HR. pose proof (pletab_ok _ _ _ _ _ Ht) as Hok. destruct t as [[T Ei] B]. destruct Ht as (HT & LE & LB & HS).
  pose proof HA as [HA1 HA2]. rewrite (okm_width n n A HA1). apply wp_bind.
  assert (HP2 : 2 ^ k <= 2 ^ K) by (apply Nat.pow_le_mono_r; lia).
  assert (HN : forall x, x < 2 ^ K -> nth x (map (ple_row (wwidth n) T) (seq 0 (length Ei))) [] = ple_row (wwidth n) T x).
  { intros x Hx. rewrite (nth_indep _ [] (ple_row (wwidth n) T 0)) by (rewrite map_length, seq_length; lia). rewrite map_nth, seq_nth by lia. reflexivity. }
  set (TL := (map (ple_row (wwidth n) T) (seq 0 (length Ei)), Ei)).
  change (mzd_process_rows A 0 r r k TL) with (process_rows A 0 r r k [TL]).
  apply (wp_process_rows n n K A 0 r r k (fun l j => xorb (bitat E l j) (Nat.eqb j (r + l)))); [exact HA1|lia|lia|exact Hk1|lia|exact Hr|lia| | |].
  - cbn. lia.
  - assert (ES : splits (length [TL]) k = [k]) by (cbn; f_equal; lia). rewrite ES. cbn [tabspec]. split; [exact Hk1|]. split; [exact HkK|]. split; [|split; [|exact I]].
    + split; [|split; [exact LE|split]]; cbn [fst TL].
      * rewrite map_length, seq_length. exact LE.
      * intros i Hi. rewrite HN by exact Hi. apply (ple_row_wf n K); assumption.
      * intros j. assert (0 < 2 ^ K) by (apply Nat.neq_0_lt_0, Nat.pow_nonzero; lia). rewrite HN by assumption. rewrite rowbit_tb, ple_row_rw.
        destruct (Nat.ltb_spec (j / 64) (wwidth n)); [|apply tb_0]. destruct HT as (_ & _ & Z). rewrite Z by assumption. apply tb_0.
    + intros x Hx. destruct (HS x Hx) as (S1 & S2 & _). split; [exact S1|]. intros j Hj. cbn [fst TL]. rewrite HN by lia.
      destruct (Nat.lt_ge_cases j n) as [Hjn|Hjn].
      * rewrite ple_row_bit, S2 by assumption. unfold hsum. destruct (Nat.leb_spec r j); cbn [andb]; [reflexivity|].
        apply xsum_false. intros l Hl. rewrite EE by assumption. pose proof (HA2 (r + l) ltac:(lia)) as (_ & _ & _ & Z & _). rewrite Z by lia.
        destruct (Nat.eqb_spec j (r + l)); [lia|]. apply andb_false_r.
      * rewrite xsum_false; [|intros l Hl; rewrite (bitat_zero k n E) by assumption; destruct (Nat.eqb_spec j (r + l)); [lia|apply andb_false_r]].
        rewrite andb_false_r. rewrite rowbit_tb. apply (wfr_tb n); [apply (ple_row_wf n K); [exact HT|lia]|lia].
  - intros M' HM' HAd. apply wp_ok, HQ; [|exact Hok]. split; [exact HM'|]. intros j Hj. pose proof (HA2 j Hj) as Hj'. unfold pg in *.
    destruct (Nat.ltb_spec j r).
    + destruct (Nat.ltb_spec j (r + k)); [|lia]. apply (stp_rowst j r k (bitat E) (bitat A j)); [exact Hj'|exact Hr|exact HR|]. intros y Hy. rewrite HAd.
      destruct (Nat.leb_spec 0 j); [|lia]. destruct (Nat.ltb_spec j r); [|lia]. cbn [andb]. unfold stp. destruct (Nat.leb_spec r y); [reflexivity|].
      rewrite xsum_false; [symmetry; apply xorb_false_r|]. intros l Hl. destruct (HR l Hl) as (_ & _ & _ & Z & _). rewrite Z by lia.
      destruct (Nat.eqb_spec y (r + l)); [lia|]. apply andb_false_r.
    + assert (Ej : rowst n U j (if Nat.ltb j (r + k) then r + k else j + 1) (bitat M' j)).
      { apply (rowst_ext n U _ _ _ _ Hj'). intros y Hy. rewrite HAd. destruct (Nat.ltb_spec j r); [lia|]. rewrite andb_false_r. reflexivity. }
      destruct (Nat.ltb_spec j (r + k)); exact Ej.
Qed.
End Rows.
