(** An instance of what is assumed about NTL: determinant and inverse by the model of M4RI, and a periodic
    sequence of bits from which invertible matrices are always found. *)
From Coq Require Import Arith NArith ZArith List Bool Lia ZifyNat Setoid Morphisms.
From Verif Require Import Base Spec LinAlg.
From Verif Require Import ModelM4ri SpecM4ri M4ri1 M4ri2 M4ri8 ModelM4ri2 SpecM4ri2 ModelGf2 SpecGf2 Gf2a Gf2b Gf2c.
From Verif Require Import ModelNtl SpecNtl Ntl1 Ntl2.
From Verif Require ModelSM4.
Import ListNotations.
Local Open Scope nat_scope.

(** ** Determinant and inverse *)

Definition to_mzd (A : gmat) : res mzd :=
  for_up 0 (grows A) (fun i M => for_up 0 (gcols A) (fun j M => MatGf2Set M i j (if gat A i j then 1 else 0)) M)
    (mzd_init (grows A) (gcols A)).
Definition of_mzd (n : nat) (B : mzd) : gmat := mkgmat n n (map (fun i => map (bitat B i) (seq 0 n)) (seq 0 n)).
Definition ex_inv (A : gmat) : gmat :=
  match (M <- to_mzd A ;; GenMatGf2Inv M) with Ok B => of_mzd (grows A) B | UB => A end.
Definition is_id (n : nat) (f : fmat) : bool :=
  forallb (fun i => forallb (fun j => Bool.eqb (f i j) (fid i j)) (seq 0 n)) (seq 0 n).
Definition inv_check (n : nat) (A B : gmat) : bool :=
  is_id n (fmul n (gat A) (gat B)) && is_id n (fmul n (gat B) (gat A)).
Definition ex_det (A : gmat) : bool := inv_check (grows A) A (ex_inv A).

Lemma is_id_ok : forall n f, is_id n f = true <-> feq n f fid.
Proof.
  intros n f. unfold is_id. rewrite forallb_forall. split.
  - intros H i j Hi Hj. specialize (H i). rewrite in_seq, forallb_forall in H. specialize (H ltac:(lia) j). rewrite in_seq in H.
    apply eqb_prop, H. lia.
  - intros H i Hi. apply in_seq in Hi. rewrite forallb_forall. intros j Hj. apply in_seq in Hj. apply eqb_true_iff, H; lia.
Qed.
Lemma inv_check_ok : forall n A B, inv_check n A B = true <-> inverse_of n (gat A) (gat B).
Proof. intros. unfold inv_check, inverse_of. rewrite andb_true_iff, !is_id_ok. reflexivity. Qed.
Lemma of_mzd_ok : forall n B, gok n n (of_mzd n B) /\ feq n (gat (of_mzd n B)) (bitat B).
Proof.
  intros n B. split.
  - repeat split; cbn [gdata of_mzd]; [rewrite map_length, seq_length; reflexivity|].
    intros r Hr. apply in_map_iff in Hr. destruct Hr as (i & <- & _). rewrite map_length, seq_length. reflexivity.
  - intros i j Hi Hj. unfold gat. cbn [gdata of_mzd].
    rewrite (nth_indep _ [] (map (bitat B 0) (seq 0 n))) by (rewrite map_length, seq_length; exact Hi).
    rewrite (map_nth (fun i => map (bitat B i) (seq 0 n))), seq_nth by exact Hi. cbn [Nat.add].
    rewrite (nth_indep _ false (bitat B i 0)) by (rewrite map_length, seq_length; exact Hj).
    rewrite map_nth, seq_nth by exact Hj. reflexivity.
Qed.
Lemma wp_to_mzd : forall n A, gok n n A -> wp (to_mzd A) (fun M => okm n n M /\ feq n (bitat M) (gat A)).
Proof.
  intros n A HA. pose proof HA as (H1 & H2 & _). unfold to_mzd. rewrite H1, H2.
  apply (wp_fill_all n n _ (gat A) (fun i j M => MatGf2Set M i j (if gat A i j then 1 else 0)) (fun _ => n)).
  - apply init_ok.
  - reflexivity.
  - intros i j M Q' Hi Hj HM HQ'. apply (wp_set n n M i j _ (gat A i j)); auto. destruct (gat A i j); reflexivity.
  - intros M HM HE. split; [exact HM|]. intros i j Hi Hj. apply HE; assumption.
Qed.
Lemma ex_inv_ok : forall n A, gok n n A -> invertible n (gat A) -> gok n n (ex_inv A) /\ inverse_of n (gat A) (gat (ex_inv A)).
Proof.
  intros n A HA HI. unfold ex_inv. rewrite (proj1 HA). destruct (Nat.eq_dec n 0) as [->|Hn].
  - destruct (bind _ _); [split; [apply of_mzd_ok|]|split; [exact HA|]]; split; intros i j Hi; lia.
  - destruct (wp_ex _ _ _ (wp_to_mzd n A HA)) as (M & EM & HM & FM). rewrite EM. cbn [bind]. unfold GenMatGf2Inv.
    destruct (wp_ex _ _ _ (wp_inv_m4ri n M HM ltac:(lia))) as (B & EB & _ & _ & _ & HB). rewrite EB.
    destruct (of_mzd_ok n B) as [G F]. split; [exact G|].
    destruct (HB (invertible_ext n _ _ (symmetry FM) HI)) as [I1 I2]. unfold inverse_of. rewrite F, <- FM. split; assumption.
Qed.
Definition ex_ntl (rnd : nat -> bool) (u : ModelSM4.ulong) : ntl := mkntl ex_det ex_inv rnd u.
Lemma ex_ntl_ok : forall rnd u, ntl_ok (ex_ntl rnd u).
Proof.
  intros rnd u n A HA. cbn [tdet tinv ex_ntl]. split; [|apply ex_inv_ok; exact HA]. unfold ex_det. rewrite (proj1 HA), inv_check_ok. split.
  - intros H. exists (gat (ex_inv A)). exact H.
  - intros H. apply (ex_inv_ok n A HA H).
Qed.

(** ** A periodic sequence *)

Lemma block_gok : forall rnd n s k, gok k n (mkgmat k n (map (fun i => block rnd n (s + n * i)) (seq 0 k))).
Proof.
  intros. repeat split; cbn [gdata]; [rewrite map_length, seq_length; reflexivity|].
  intros r Hr. apply in_map_iff in Hr. destruct Hr as (i & <- & _). apply block_length.
Qed.
Definition taken (rnd : nat -> bool) (n s : nat) : gmat := mkgmat n n (map (fun i => block rnd n (s + n * i)) (seq 0 n)).
Lemma rows_all : forall rnd m, (forall s, ones (block rnd m s) <> 1) -> forall n s,
  rows_from rnd m n s (s + m * n) (map (fun i => block rnd m (s + m * i)) (seq 0 n)).
Proof.
  intros rnd m H. induction n as [|n IH]; intros s; cbn [seq map].
  - rewrite Nat.mul_0_r, Nat.add_0_r. constructor.
  - rewrite Nat.mul_0_r, Nat.add_0_r. apply rows_take; [apply H|].
    replace (s + m * S n) with ((s + m) + m * n) by lia. rewrite <- seq_shift, map_map.
    replace (map (fun x => block rnd m (s + m * S x)) (seq 0 n)) with (map (fun i => block rnd m (s + m + m * i)) (seq 0 n)); [apply IH|].
    apply map_ext. intros i. f_equal. lia.
Qed.
Lemma found : forall rnd n, (forall s, ones (block rnd n s) <> 1) -> forall k s, invertible n (gat (taken rnd n (s + k * (n * n)))) ->
  exists s' l, inv_from rnd n s s' l.
Proof.
  intros rnd n H. induction k as [|k IH]; intros s HI.
  - rewrite Nat.add_0_r in HI. exists (s + n * n). eexists. apply inv_take; [apply rows_all; exact H|exact HI].
  - assert (D := ex_ntl_ok rnd ModelSM4.UL64 n (taken rnd n s) (block_gok rnd n s n)).
    destruct (tdet (ex_ntl rnd ModelSM4.UL64) (taken rnd n s)) eqn:E.
    + exists (s + n * n). eexists. apply inv_take; [apply rows_all; exact H|]. apply (proj1 D). reflexivity.
    + destruct (IH (s + n * n)) as (s' & l & Hl).
      { replace (s + n * n + k * (n * n)) with (s + S k * (n * n)) by lia. exact HI. }
      exists s', l. eapply inv_skip; [apply rows_all; exact H| |exact Hl]. intros X. apply (proj1 D) in X. congruence.
Qed.
Lemma taken_period : forall rnd p n, (forall s, rnd (s + p) = rnd s) -> forall k s, taken rnd n (s + k * p) = taken rnd n s.
Proof.
  intros rnd p n H k s. unfold taken. f_equal. apply map_ext. intros i. unfold block.
  replace (s + k * p + n * i) with ((s + n * i) + k * p) by lia. generalize (s + n * i). intros t.
  apply (list_ext _ false); rewrite !map_length, !seq_length; [reflexivity|]. intros j Hj.
  rewrite !(nth_indep _ false (rnd 0)) by (rewrite map_length, seq_length; exact Hj). rewrite !map_nth, !seq_nth by exact Hj.
  replace (t + k * p + j) with ((t + j) + k * p) by lia. generalize (t + j). intros q.
  induction k as [|k IH]; [f_equal; lia|]. replace (q + S k * p) with ((q + k * p) + p) by lia. rewrite H. exact IH.
Qed.
(** from position 0 mod p an invertible matrix is taken, and n * n * u = 1 mod p *)
Lemma always_periodic : forall rnd p n u v, 0 < p -> (forall s, rnd (s + p) = rnd s) -> (forall s, ones (block rnd n s) <> 1) ->
  n * n * u = 1 + v * p -> invertible n (gat (taken rnd n 0)) -> always rnd n.
Proof.
  intros rnd p n u v Hp HP HO HU HI s. apply (found rnd n HO (u * (s * (p - 1)))).
  replace (s + u * (s * (p - 1)) * (n * n)) with (s + (s * (p - 1)) * (n * n * u)) by lia. rewrite HU.
  replace (s + s * (p - 1) * (1 + v * p)) with (0 + (s + s * (p - 1) * v) * p); [rewrite (taken_period rnd p n HP); exact HI|].
  destruct p as [|p]; [lia|]. cbn [Nat.sub]. rewrite Nat.sub_0_r. nia.
Qed.

Definition pattern : list bool := map (Nat.eqb 1)
  [1; 0; 0; 1; 1; 0; 0; 1; 1; 1; 0; 1; 1; 0; 1; 0; 0; 0; 0; 1; 1; 1; 0; 1; 1; 0; 0; 0; 1; 1; 0; 1; 1].
Definition ex_rnd (s : nat) : bool := nth (s mod 33) pattern false.
Lemma ex_rnd_period : forall s, ex_rnd (s + 33) = ex_rnd s.
Proof. intros s. unfold ex_rnd. f_equal. replace (s + 33) with (s + 1 * 33) by lia. apply Nat.mod_add. discriminate. Qed.
Lemma block_mod : forall n s, block ex_rnd n s = block ex_rnd n (s mod 33).
Proof.
  intros n s. unfold block. apply (list_ext _ false); rewrite !map_length, !seq_length; [reflexivity|]. intros j Hj.
  rewrite !(nth_indep _ false (ex_rnd 0)) by (rewrite map_length, seq_length; exact Hj). rewrite !map_nth, !seq_nth by exact Hj.
  unfold ex_rnd. f_equal. rewrite Nat.add_mod_idemp_l by discriminate. reflexivity.
Qed.
Lemma no_single : forall n, forallb (fun s => negb (Nat.eqb (ones (block ex_rnd n s)) 1)) (seq 0 33) = true ->
  forall s, ones (block ex_rnd n s) <> 1.
Proof.
  intros n H s E. rewrite block_mod in E. rewrite forallb_forall in H. specialize (H (s mod 33)).
  rewrite in_seq in H. specialize (H ltac:(pose proof (Nat.mod_upper_bound s 33 ltac:(lia)); lia)). rewrite E in H. discriminate.
Qed.
Definition num_rows (n : nat) (l : list N) : gmat := mkgmat n n (map (vbits n) l).
Definition inv8 : gmat := num_rows 8 [171; 121; 109; 155; 209; 11; 216; 97]%N.
Definition inv32 : gmat := num_rows 32 [2601031523; 695411501; 1884223754; 2737826790; 3399443088; 4266075691; 466942857; 1763513688;
  2944802255; 859072123; 2104318881; 1514259788; 3056104901; 1071862398; 2230926940; 3648260173; 139291834; 2670600510; 3567224828;
  4047983773; 475316946; 2502096394; 3516525670; 4089733456; 3807029195; 360856441; 1849062688; 2886970867; 855555685; 2106079150;
  2781646004; 3387871545]%N.
Lemma ex_always8 : always ex_rnd 8.
Proof.
  apply (always_periodic ex_rnd 33 8 16 31); [lia|exact ex_rnd_period|apply no_single; vm_compute; reflexivity|reflexivity|].
  exists (gat inv8). apply inv_check_ok. vm_compute. reflexivity.
Qed.
Lemma ex_always32 : always ex_rnd 32.
Proof.
  apply (always_periodic ex_rnd 33 32 1 31); [lia|exact ex_rnd_period|apply no_single; vm_compute; reflexivity|reflexivity|].
  exists (gat inv32). apply inv_check_ok. vm_compute. reflexivity.
Qed.
Definition ex_nt : ntl := ex_ntl ex_rnd ModelSM4.UL64.
Lemma ex_nt_ok : ntl_ok ex_nt.
Proof. apply ex_ntl_ok. Qed.
