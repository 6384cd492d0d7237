(** The white-box tables of test/WBAES/M4RI compute AES-128. *)
From Coq Require Import Arith NArith ZArith List Bool Lia Setoid Morphisms.
From Verif Require Import Base Spec LinAlg.
From Verif Require Import ModelM4ri SpecM4ri M4ri1 M4ri2 M4ri8 ModelM4ri2 SpecM4ri2 ModelGf2 SpecGf2 Gf2a Gf2b WBSM4M2.
From Verif Require Import Trans ModelSM4 SpecSM4 SM4 WBSM4 ModelAES SpecAES AES WBAES ModelAESM.
Import ListNotations.
Local Open Scope nat_scope.

(** ** Products of a matrix and a number *)

Definition nomz : mzd := mzd_init 0 0.
Definition mm (n : nat) (M : mzd) (x : N) : N := num n (fapp n (bitat M) (bits n x)).
Lemma mm_lt : forall n M x, (mm n M x < 2 ^ N.of_nat n)%N.
Proof. intros. apply num_lt. Qed.
Lemma wp_mm : forall e n M xx x (Q : mzd -> Prop), env_ok e -> okm n n M -> 0 < n -> n <= 32 ->
  okm n 1 xx -> (forall i, i < n -> bitat xx i 0 = bits n x i) ->
  (forall y, okm n 1 y -> num n (col0 y) = mm n M x -> Q y) -> wp (GenMatGf2Mul e M xx) Q.
Proof.
  intros e n M xx x Q HE HM Hn H32 Hx Ex HQ. apply (wp_mulv n n); auto; [apply vsmall_le; lia|]. intros y Hy Ey.
  apply HQ; [exact Hy|]. apply num_ext. intros i Hi. rewrite Ey by exact Hi. apply fapp_proper; [reflexivity| |exact Hi]. exact Ex.
Qed.
Lemma am_mul_ok : forall e n M x, env_ok e -> okm n n M -> 0 < n -> n <= 32 -> am_mul e n M x = Ok (mm n M x).
Proof.
  intros e n M x HE HM Hn H32. apply Cons.wp_eq. unfold am_mul. apply wp_bind, (wp_vec_u e n); [apply init_ok|left; lia|].
  intros xx Hxx Exx. apply wp_bind. apply (wp_mm e n M xx x); auto. intros y Hy <-. apply (digits32 n); auto.
Qed.
Lemma mm_lxor : forall n M x y, mm n M (N.lxor x y) = N.lxor (mm n M x) (mm n M y).
Proof.
  intros n M x y. apply (bits_ext n); [apply mm_lt|apply WBSM4M.lxor_lt; apply mm_lt|].
  unfold mm. rewrite bits_num. intros i Hi. rewrite bits_lxor. rewrite !bits_num by exact Hi.
  rewrite (fapp_proper n _ _ (reflexivity (bitat M)) _ _ (WBSM4M.bits_lxor_v n x y) i Hi). rewrite (fapp_vadd n _ _ _ i Hi). reflexivity.
Qed.
Lemma mm_comp : forall n A B x, feq n (fmul n (bitat B) (bitat A)) fid -> (x < 2 ^ N.of_nat n)%N -> mm n B (mm n A x) = x.
Proof.
  intros n A B x HI Hx. apply (bits_ext n); [apply mm_lt|exact Hx|]. unfold mm at 1. rewrite bits_num. unfold mm.
  rewrite (fapp_proper n _ _ (reflexivity (bitat B)) _ _ (bits_num n _)). rewrite <- fmul_fapp, HI, fapp_id. reflexivity.
Qed.
Definition pairZ (n : nat) (A B : mzd) : Prop := okm n n A /\ okm n n B /\
  (forall x, (x < 2 ^ N.of_nat n)%N -> mm n B (mm n A x) = x) /\
  (forall x, (x < 2 ^ N.of_nat n)%N -> mm n A (mm n B x) = x).

Lemma dims2_rep : forall A (x : A) n m, dims2 n m (repeat (repeat x m) n).
Proof. intros. split; [apply repeat_length|]. intros. rewrite nth_rept by auto. apply repeat_length. Qed.
Lemma dims3_rep : forall A (x : A) n m l, dims3 n m l (repeat (repeat (repeat x l) m) n).
Proof. intros. split; [apply repeat_length|]. intros. rewrite nth_rept by auto. apply dims2_rep. Qed.

(** ** The random bijections *)

Definition zpairs (n m : nat) (D : nat -> nat -> Prop) (t : list (list (list mzd))) : Prop :=
  dims3 10 m 2 t /\ forall i k, D i k -> pairZ n (at3 nomz t i k 0) (at3 nomz t i k 1).
Lemma zpairs_mono : forall n m (D D' : nat -> nat -> Prop) t, zpairs n m D t -> (forall i k, D' i k -> D i k) -> zpairs n m D' t.
Proof. intros n m D D' t [H1 H2] H. split; [exact H1|]. intros i k Hk. apply H2, H, Hk. Qed.
Lemma draw_pos_3 : forall n s t, s mod 3 = 0 -> draw_pos n s t mod 3 = 0.
Proof.
  intros n s t H. unfold draw_pos. replace (t * (3 * (n * ((n + 63) / 64)))) with ((t * (n * ((n + 63) / 64))) * 3) by ring.
  rewrite Nat.mod_add by discriminate. exact H.
Qed.
Lemma am_pair_wp : forall fuel e n m i k D mb s, 0 < n -> i < 10 -> k < m -> zpairs n m D mb ->
  wp (am_pair fuel e n i k (Some (mb, s))) (fun o =>
    (fair fuel n (erand e) -> s mod 3 = 0 -> o <> None) /\
    forall mb' s', o = Some (mb', s') -> (s mod 3 = 0 -> s' mod 3 = 0) /\ zpairs n m (fun i' k' => D i' k' \/ i' = i /\ k' = k) mb').
Proof.
  intros fuel e n m i k D mb s Hn Hi Hk [DM HP]. unfold am_pair. apply wp_bind.
  eapply wp_mono; [apply wp_gen_invertible; exact Hn|]. intros [[A s1]|].
  2:{ intros K. apply wp_ok. split; [|discriminate]. intros HF H3. exfalso. destruct (HF s H3) as (t & Ht & HI). exact (K t Ht HI). }
  intros (HA & t & Ht & -> & [HI _] & EA).
  apply wp_bind. apply (wp_set3 _ nomz 10 m 2); auto; try lia. intros t1 D1 H1 _.
  apply wp_bind. apply (wp_get3 _ nomz 10 m 2); auto; try lia. rewrite H1, !Nat.eqb_refl. cbn [andb].
  apply wp_bind. eapply wp_mono; [apply (wp_inv_m4ri n); assumption|]. intros B (HB & _ & _ & HV).
  apply wp_bind. apply (wp_set3 _ nomz 10 m 2); auto; try lia. intros t2 D2 H2 _.
  apply wp_ok. split; [discriminate|]. intros mb' s' E. injection E as <- <-. split; [apply draw_pos_3|]. split; [exact D2|].
  assert (I : inverse_of n (bitat A) (bitat B)).
  { apply HV. apply (invertible_ext n (drawn n (erand e) (draw_pos n s t))); [symmetry; exact EA|exact HI]. }
  intros i' k' HD. rewrite !H2, !H1.
  destruct (Nat.eqb_spec i' i) as [->|], (Nat.eqb_spec k' k) as [->|]; cbn [andb Nat.eqb];
    try (apply HP; destruct HD as [?|[? ?]]; [assumption|contradiction]).
  split; [exact HA|]. split; [exact HB|]. destruct I. split; intros x Hx; apply mm_comp; assumption.
Qed.
Lemma am_fill_wp : forall fuel e n m i mb s, 0 < n -> i < 10 -> zpairs n m (fun i' k' => i' < i /\ k' < m) mb ->
  wp (for_up 0 m (fun k st => am_pair fuel e n i k st) (Some (mb, s))) (fun o =>
    (fair fuel n (erand e) -> s mod 3 = 0 -> o <> None) /\
    forall mb' s', o = Some (mb', s') -> (s mod 3 = 0 -> s' mod 3 = 0) /\ zpairs n m (fun i' k' => i' < S i /\ k' < m) mb').
Proof.
  intros fuel e n m i mb s Hn Hi HP.
  apply wp_for_up with (I := fun k o => (fair fuel n (erand e) -> s mod 3 = 0 -> o <> None) /\
    forall mb' s', o = Some (mb', s') -> (s mod 3 = 0 -> s' mod 3 = 0) /\
      zpairs n m (fun i' k' => i' < i /\ k' < m \/ i' = i /\ k' < k) mb').
  - lia.
  - split; [discriminate|]. intros mb' s' E. injection E as <- <-. split; [auto|]. eapply zpairs_mono; [exact HP|]. cbv beta. lia.
  - intros k [[mb1 s1]|] _ Hk [Hf H].
    + destruct (H mb1 s1 eq_refl) as [H3 H1].
      eapply wp_mono; [apply (am_pair_wp fuel e n m i k (fun i' k' => i' < i /\ k' < m \/ i' = i /\ k' < k) mb1 s1); [exact Hn|exact Hi|exact Hk|exact H1]|].
      intros o [F G]. split; [auto|]. intros mb' s' E. destruct (G mb' s' E) as [G3 G1]. split; [auto|].
      eapply zpairs_mono; [exact G1|]. cbv beta. lia.
    + apply wp_ok. split; [exact Hf|discriminate].
  - intros o [Hf H]. split; [exact Hf|]. intros mb' s' E. destruct (H mb' s' E) as [H3 H1]. split; [exact H3|].
    eapply zpairs_mono; [exact H1|]. cbv beta. lia.
Qed.
Lemma am_bijections_wp : forall fuel e mb32 mb8 s, dims3 10 4 2 mb32 -> dims3 10 16 2 mb8 ->
  wp (am_bijections fuel e mb32 mb8 s) (fun o =>
    (fair fuel 8 (erand e) -> fair fuel 32 (erand e) -> s mod 3 = 0 -> o <> None) /\
    forall a b s', o = Some (a, b, s') -> (s mod 3 = 0 -> s' mod 3 = 0) /\
      zpairs 32 4 (fun i k => i < 10 /\ k < 4) a /\ zpairs 8 16 (fun i k => i < 10 /\ k < 16) b).
Proof.
  intros fuel e mb32 mb8 s D32 D8. unfold am_bijections.
  apply wp_for_up with (I := fun i o => (fair fuel 8 (erand e) -> fair fuel 32 (erand e) -> s mod 3 = 0 -> o <> None) /\
    forall a b s', o = Some (a, b, s') -> (s mod 3 = 0 -> s' mod 3 = 0) /\
      zpairs 32 4 (fun i' k => i' < i /\ k < 4) a /\ zpairs 8 16 (fun i' k => i' < i /\ k < 16) b).
  - lia.
  - split; [discriminate|]. intros a b s' E. injection E as <- <- <-. split; [auto|].
    split; (split; [assumption|intros i k [? ?]; lia]).
  - intros i [[[a b] s1]|] _ Hi [Hf H]; [|apply wp_ok; split; [exact Hf|discriminate]].
    destruct (H a b s1 eq_refl) as (H3 & Ha & Hb). apply wp_bind.
    eapply wp_mono; [apply (am_fill_wp fuel e 32 4 i a s1); [lia|exact Hi|exact Ha]|].
    intros [[a' s2]|] [F1 G1].
    2:{ apply wp_ok. split; [|discriminate]. intros F8 F32 Hs _. exact (F1 F32 (H3 Hs) eq_refl). }
    destruct (G1 a' s2 eq_refl) as [G13 Ga]. apply wp_bind.
    eapply wp_mono; [apply (am_fill_wp fuel e 8 16 i b s2); [lia|exact Hi|exact Hb]|].
    intros [[b' s3]|] [F2 G2].
    2:{ apply wp_ok. split; [|discriminate]. intros F8 F32 Hs _. exact (F2 F8 (G13 (H3 Hs)) eq_refl). }
    destruct (G2 b' s3 eq_refl) as [G23 Gb]. apply wp_ok. split; [discriminate|]. intros a0 b0 s0 E. injection E as <- <- <-. auto.
  - auto.
Qed.

(** ** The T-boxes *)

Record ztbinv (mb8 : list (list (list mzd))) (ek0 : list N) (MO : list (list (list N)))
  (X : list (list (list (list N)))) (D DM : nat -> nat -> nat -> Prop) (t : aestab) : Prop := mkztb
  { ti_TB : dims3 10 16 256 (tTBoxes t); ti_TY : dims3 9 16 256 (tTyiBoxes t); ti_MI : dims3 10 16 256 (tMixIn t);
    ti_TT : tyi_ok (tTyiTables t); ti_MO : tMixOut t = MO; ti_X : tXor t = X;
    ti_tb : forall i j x, i < 10 -> j < 16 -> x < 256 -> D i j x -> at3 0%N (tTBoxes t) i j x = tb ek0 i j x;
    ti_ty : forall i j x, i < 9 -> j < 16 -> x < 256 -> D i j x -> at3 0%N (tTyiBoxes t) i j x = ty ek0 i j x;
    ti_mi : forall i j x, i < 10 -> j < 16 -> x < 256 -> DM i j x ->
      at3 0%N (tMixIn t) i j x = mm 8 (at3 nomz mb8 i j 0) (N.of_nat x) }.
Lemma ztbinv_mono : forall mb8 ek0 MO X (D DM D' DM' : nat -> nat -> nat -> Prop) t,
  ztbinv mb8 ek0 MO X D DM t ->
  (forall i j x, i < 10 -> j < 16 -> x < 256 -> D' i j x -> D i j x) ->
  (forall i j x, i < 10 -> j < 16 -> x < 256 -> DM' i j x -> DM i j x) -> ztbinv mb8 ek0 MO X D' DM' t.
Proof. intros mb8 ek0 MO X D DM D' DM' t [] H1 H2. split; auto. Qed.

Definition pairs8 mb8 := zpairs 8 16 (fun i k => i < 10 /\ k < 16) mb8.
Lemma pairs8_ok : forall mb8 i j k, pairs8 mb8 -> i < 10 -> j < 16 -> k < 2 -> okm 8 8 (at3 nomz mb8 i j k).
Proof.
  intros mb8 i j k [_ P] Hi Hj Hk. destruct (P i j (conj Hi Hj)) as (W0 & W1 & _). destruct k as [|[|k]]; auto; lia.
Qed.
Lemma mm8_lt : forall M x, (mm 8 M x < 256)%N.
Proof. intros. exact (mm_lt 8 M x). Qed.
Lemma wp_prod8 : forall e mb8 i j k xx x (Q : N -> Prop), env_ok e -> pairs8 mb8 -> i < 10 -> j < 16 -> k < 2 ->
  okm 8 1 xx -> (forall r, r < 8 -> bitat xx r 0 = bits 8 x r) -> Q (mm 8 (at3 nomz mb8 i j k) x) ->
  wp (m <- get3 mb8 i j k ;; y <- GenMatGf2Mul e m xx ;; getDigitalFromVec y) Q.
Proof.
  intros e mb8 i j k xx x Q HE Hp Hi Hj Hk Hx Ex HQ. apply wp_bind. apply (wp_get3 _ nomz 10 16 2); auto; [apply Hp|].
  apply wp_bind. apply (wp_mm e 8 _ xx x); auto; try lia; [apply pairs8_ok; auto|]. intros y Hy Ey.
  eapply wp_mono; [apply (digits32 8); [exact Hy|lia]|]. intros d ->. rewrite Ey. exact HQ.
Qed.
Lemma mu8_ok : forall e mb8 i j k x, env_ok e -> pairs8 mb8 -> i < 10 -> j < 16 -> k < 2 ->
  (m <- get3 mb8 i j k ;; am_mul e 8 m x) = Ok (mm 8 (at3 nomz mb8 i j k) x).
Proof.
  intros e mb8 i j k x HE Hp Hi Hj Hk. rewrite (get3_ok mzd nomz 10 16 2) by (auto; apply Hp). cbn [bind].
  apply am_mul_ok; auto; try lia. apply pairs8_ok; auto.
Qed.
Lemma am_tbox_wp : forall e mb8 ek0 ek MO X i j x t, env_ok e -> pairs8 mb8 -> bytes 176 ek0 -> shifted (S i) ek0 ek ->
  i < 10 -> j < 16 -> x < 256 ->
  ztbinv mb8 ek0 MO X (fun i' j' x' => i' < i \/ i' = i /\ (j' < j \/ j' = j /\ x' < x))
    (fun i' j' _ => i' < i \/ i' = i /\ j' <= j) t ->
  wp (am_tbox_entry e mb8 ek i j x t)
     (ztbinv mb8 ek0 MO X (fun i' j' x' => i' < i \/ i' = i /\ (j' < j \/ j' = j /\ x' < S x))
       (fun i' j' _ => i' < i \/ i' = i /\ j' <= j)).
Proof.
  intros e mb8 ek0 ek MO X i j x t HE Hp He (Le & S1 & S2) Hi Hj Hx HT. pose proof (proj1 He) as L0. rewrite L0 in Le.
  destruct HT as [DTB DTY DMI TT EMO EX Htb Hty Hmi]. unfold am_tbox_entry.
  apply wp_bind, (wp_vec_u e 8); [apply init_ok|left; lia|]. intros xx Hxx Exx.
  match goal with |- wp (bind ?c ?f) _ => assert (E : bind c f = bind (Ok (if (0 <? i) && (i <? 9) then mm 8 (at3 nomz mb8 (i - 1) j 1) (N.of_nat x) else N.of_nat x)) f) end.
  { f_equal. destruct (Nat.ltb_spec 0 i), (Nat.ltb_spec i 9); cbn [andb]; auto. apply Cons.wp_eq.
    apply (wp_prod8 e mb8 (i - 1) j 1 xx (N.of_nat x)); auto; lia. }
  rewrite E. clear E. cbn [bind].
  match goal with |- wp (bind ?c _) _ => assert (E : c = Ok (N.of_nat x)) end.
  { destruct (Nat.ltb_spec 0 i), (Nat.ltb_spec i 9); cbn [andb]; auto.
    pose proof (mm8_lt (at3 nomz mb8 (i - 1) j 1) (N.of_nat x)) as B. rewrite (get3_ok N 0%N 10 16 256) by (auto; lia).
    rewrite Hmi by (auto; lia). rewrite N2Nat.id. apply f_equal.
    destruct Hp as [_ P]. destruct (P (i - 1) j ltac:(cbv beta; lia)) as (_ & _ & _ & I). apply I.
    change (2 ^ N.of_nat 8)%N with 256%N. lia. }
  rewrite E. clear E. cbn [bind]. rewrite (aget_ok _ ek _ 0%N) by lia. cbn [bind].
  replace (nth (16 * i + j) ek 0%N) with (sk ek0 i j).
  2:{ unfold sk. rewrite <- S1 by lia. apply rks_nth. auto. }
  assert (Bs : (sk ek0 i j < 256)%N) by (apply sk_bound; auto; lia).
  assert (Be : (ent ek0 i j x < 256)%N) by (apply ent_bound; auto; lia).
  rewrite aget_sbox by (apply xor_byte; auto; lia). cbn [bind].
  remember (ent ek0 i j x) as v eqn:Ev. unfold ent in Ev. rewrite <- Ev. rewrite (uchar_id _ Be).
  apply wp_bind. apply wp_set3 with (d := 0%N) (n := 10) (m := 16) (l := 256); auto. intros TB1 D1 H1 _.
  destruct (Nat.eqb_spec i 9) as [E9|E9].
  - rewrite (get3_ok N 0%N 10 16 256) by auto. cbn [bind].
    rewrite (aget_ok _ ek _ 0%N) by lia. cbn [bind].
    apply wp_bind. apply wp_set3 with (d := 0%N) (n := 10) (m := 16) (l := 256); auto. intros TB2 D2 H2 _.
    apply wp_ok. split; cbn [tTBoxes tTyiBoxes tMixIn tTyiTables tMixOut tXor]; auto.
    + intros i' j' x' Hi' Hj' Hx' HD. rewrite H2, !H1. rewrite !Nat.eqb_refl. cbn [andb].
      change 160 with (16 * 10). rewrite <- rks_nth by auto. rewrite S2 by lia.
      destruct (Nat.eqb_spec i' i) as [->|], (Nat.eqb_spec j' j) as [->|], (Nat.eqb_spec x' x) as [->|]; cbn [andb];
        try (apply Htb; auto; lia).
      unfold tb, ent. rewrite E9 in *. rewrite <- Ev. reflexivity.
    + intros i' j' x' Hi' Hj' Hx' HD. apply Hty; auto. lia.
  - assert (Bm := mod4 j). apply wp_bind. apply wp_get2 with (d := 0%N) (n := 4) (m := 256); [apply TT|auto|lia|].
    rewrite (proj2 TT) by (auto; lia). rewrite N2Nat.id.
    apply wp_bind. apply wp_set3 with (d := 0%N) (n := 9) (m := 16) (l := 256); auto; [lia|]. intros TY2 D2 H2 _.
    apply wp_ok. split; cbn [tTBoxes tTyiBoxes tMixIn tTyiTables tMixOut tXor]; auto.
    + intros i' j' x' Hi' Hj' Hx' HD. rewrite H1.
      destruct (Nat.eqb_spec i' i) as [->|], (Nat.eqb_spec j' j) as [->|], (Nat.eqb_spec x' x) as [->|]; cbn [andb];
        try (apply Htb; auto; lia).
      unfold tb, ent. destruct (Nat.eqb_spec i 9); [lia|]. auto.
    + intros i' j' x' Hi' Hj' Hx' HD. rewrite H2.
      destruct (Nat.eqb_spec i' i) as [->|], (Nat.eqb_spec j' j) as [->|], (Nat.eqb_spec x' x) as [->|]; cbn [andb];
        try (apply Hty; auto; lia). unfold ty, ent. rewrite <- Ev. reflexivity.
Qed.

Lemma am_TBoxes_wp : forall e mb8 ek0 MO X t, env_ok e -> pairs8 mb8 -> bytes 176 ek0 ->
  ztbinv mb8 ek0 MO X (fun _ _ _ => False) (fun _ _ _ => False) t ->
  wp (am_TBoxes e mb8 ek0 t) (fun st => shifted 10 ek0 (fst st) /\
    ztbinv mb8 ek0 MO X (fun _ _ _ => True) (fun _ _ _ => True) (snd st)).
Proof.
  intros e mb8 ek0 MO X t HE Hp He HT. unfold am_TBoxes.
  apply wp_for_up with (I := fun i (st : list N * aestab) => shifted i ek0 (fst st) /\
    ztbinv mb8 ek0 MO X (fun i' _ _ => i' < i) (fun i' _ _ => i' < i) (snd st)); [lia| | |].
  - cbn [fst snd]. split; [split; [reflexivity|]; split; [intros; lia|auto]|].
    eapply ztbinv_mono; [exact HT| |]; cbv beta; intros; lia.
  - clear t HT. intros i [ek t] _ Hi [HS HT]. cbn [fst snd] in HS, HT. apply wp_bind.
    eapply wp_mono; [apply shift_next; [apply He|lia|exact HS]|]. clear ek HS. intros ek HS. apply wp_bind.
    apply wp_for_up with (I := fun j t =>
      ztbinv mb8 ek0 MO X (fun i' j' _ => i' < i \/ i' = i /\ j' < j) (fun i' j' _ => i' < i \/ i' = i /\ j' < j) t); [lia| | |].
    + eapply ztbinv_mono; [exact HT| |]; cbv beta; intros; lia.
    + clear t HT. intros j t _ Hj HT. apply wp_bind.
      apply wp_for_up with (I := fun x MI => dims3 10 16 256 MI /\
        forall i' j' x', i' < 10 -> j' < 16 -> x' < 256 -> (i' < i \/ i' = i /\ (j' < j \/ j' = j /\ x' < x)) ->
          at3 0%N MI i' j' x' = mm 8 (at3 nomz mb8 i' j' 0) (N.of_nat x')); [lia| | |].
      * split; [apply HT|]. intros. apply (ti_mi _ _ _ _ _ _ _ HT); auto. lia.
      * intros x MI _ Hx [DM HM]. rewrite <- bind_assoc. rewrite mu8_ok by auto. cbn [bind]. apply wp_set3 with (d := 0%N) (n := 10) (m := 16) (l := 256); auto. intros MI' D' H' _.
        split; auto. intros i' j' x' Hi' Hj' Hx' HD. rewrite H'.
        destruct (Nat.eqb_spec i' i) as [->|], (Nat.eqb_spec j' j) as [->|], (Nat.eqb_spec x' x) as [->|]; cbn [andb]; auto;
          apply HM; auto; lia.
      * intros MI [DM HM].
        apply wp_for_up with (I := fun x => ztbinv mb8 ek0 MO X (fun i' j' x' => i' < i \/ i' = i /\ (j' < j \/ j' = j /\ x' < x))
          (fun i' j' _ => i' < i \/ i' = i /\ j' <= j)); [lia| | |].
        -- destruct HT. split; cbn [tTBoxes tTyiBoxes tMixIn tTyiTables tMixOut tXor]; auto.
           ++ intros. apply ti_tb0; auto. lia.
           ++ intros. apply ti_ty0; auto. lia.
           ++ intros. apply HM; auto. lia.
        -- intros x t' _ Hx HT'. apply am_tbox_wp; auto.
        -- intros t' HT'. eapply ztbinv_mono; [exact HT'| |]; cbv beta; intros; lia.
    + intros t' HT'. apply wp_ok. cbn [fst snd]. split; auto. eapply ztbinv_mono; [exact HT'| |]; cbv beta; intros; lia.
  - intros [ek t'] [HS HT']. split; auto. eapply ztbinv_mono; [exact HT'| |]; cbv beta; intros; lia.
Qed.

(** ** The mixing bijections *)

Lemma am_reset_wp : forall e mb8 i j MI, env_ok e -> pairs8 mb8 -> i < 9 -> j < 4 -> dims3 10 16 256 MI ->
  wp (am_reset e mb8 i j MI) (fun MI' => dims3 10 16 256 MI' /\
    forall q x, q < 4 -> x < 256 -> at3 0%N MI' i (4 * j + q) x = N.of_nat x).
Proof.
  intros e mb8 i j MI HE Hp Hi Hj HD. unfold am_reset.
  apply wp_for_up with (I := fun x MI => dims3 10 16 256 MI /\
    forall q x', q < 4 -> x' < x -> at3 0%N MI i (4 * j + q) x' = N.of_nat x'); [lia| | |].
  - split; auto. intros; lia.
  - clear MI HD. intros x MI _ Hx [HD HM]. destruct (Nat.ltb_spec i 9); [|lia].
    apply wp_bind, (wp_vec_u e 8); [apply init_ok|left; lia|]. intros xx Hxx Exx. apply wp_bind.
    apply wp_for_up with (I := fun _ MI => dims3 10 16 256 MI /\
      forall q x', q < 4 -> x' < x -> at3 0%N MI i (4 * j + q) x' = N.of_nat x'); [lia|auto| |].
    + clear MI HD HM. intros q MI _ Hq [HD HM]. apply wp_bind. apply (wp_get3 _ nomz 10 16 2); auto; try lia; [apply Hp|].
      apply wp_bind. apply (wp_mm e 8 _ xx (N.of_nat x)); auto; try lia; [apply pairs8_ok; auto; lia|]. intros y Hy _.
      apply wp_bind. eapply wp_mono; [apply (digits32 8); [exact Hy|lia]|]. intros d _. apply wp_set3 with (d := 0%N) (n := 10) (m := 16) (l := 256); auto; try lia.
      intros MI' D' H' _. split; auto. intros q' x' Hq' Hx'. rewrite H'. destruct (Nat.eqb_spec x' x); [lia|].
      rewrite !andb_false_r. auto.
    + clear MI HD HM. intros MI [HD HM].
      apply wp_for_up with (I := fun q MI => dims3 10 16 256 MI /\
        forall q' x', q' < 4 -> (x' < x \/ x' = x /\ q' < q) -> at3 0%N MI i (4 * j + q') x' = N.of_nat x'); [lia| | |].
      * split; auto. intros q' x' Hq' [?|[? ?]]; [auto|lia].
      * clear MI HD HM. intros q MI _ Hq [HD HM].
        apply wp_set3 with (d := 0%N) (n := 10) (m := 16) (l := 256); auto; try lia.
        intros MI' D' H' _. split; auto. intros q' x' Hq' Hx'. rewrite H'.
        destruct (Nat.eqb_spec i i); [|lia].
        destruct (Nat.eqb_spec (4 * j + q') (4 * j + q)), (Nat.eqb_spec x' x) as [->|]; cbn [andb]; auto; apply HM; auto; lia.
      * intros MI' [D' H']. split; auto. intros q x' Hq Hx'. apply H'; auto. lia.
  - intros MI' [D' H']. split; auto.
Qed.

Definition mot (mb32 : list (list (list mzd))) (i j x : nat) : N :=
  mm 32 (at3 nomz mb32 i (j / 4) 1) (N.shiftl (N.of_nat x) (N.of_nat (24 - 8 * (j mod 4)))).
Definition tyt (mb32 : list (list (list mzd))) (ek : list N) (i j x : nat) : N :=
  mm 32 (at3 nomz mb32 i (j / 4) 0) (ty ek i j x).
Record zmixinv (mb32 : list (list (list mzd))) (ek : list N) (t0 : aestab)
  (D : nat -> nat -> nat -> Prop) (t : aestab) : Prop := mkzmix
  { mi_TB : tTBoxes t = tTBoxes t0; mi_TT : tTyiTables t = tTyiTables t0; mi_X : tXor t = tXor t0;
    mi_TY : dims3 9 16 256 (tTyiBoxes t); mi_MI : dims3 10 16 256 (tMixIn t); mi_MO : dims3 10 16 256 (tMixOut t);
    mi_done : forall i j x, i < 9 -> j < 16 -> x < 256 -> D i j x ->
      at3 0%N (tTyiBoxes t) i j x = tyt mb32 ek i j x /\ at3 0%N (tMixOut t) i j x = mot mb32 i j x;
    mi_todo : forall i j x, i < 9 -> j < 16 -> x < 256 -> ~ D i j x -> at3 0%N (tTyiBoxes t) i j x = ty ek i j x }.
Lemma zmixinv_mono : forall mb32 ek t0 (D D' : nat -> nat -> nat -> Prop) t, zmixinv mb32 ek t0 D t ->
  (forall i j x, i < 9 -> j < 16 -> x < 256 -> (D' i j x <-> D i j x)) -> zmixinv mb32 ek t0 D' t.
Proof.
  intros mb32 ek t0 D D' t [] H. split; auto.
  - intros. apply mi_done0; auto. apply H; auto.
  - intros i j x Hi Hj Hx HD. apply mi_todo0; auto. intros ?. apply HD. apply H; auto.
Qed.

Definition pairs32 mb32 := zpairs 32 4 (fun i k => i < 10 /\ k < 4) mb32.
Lemma pairs32_ok : forall mb32 i j k, pairs32 mb32 -> i < 10 -> j < 4 -> k < 2 -> okm 32 32 (at3 nomz mb32 i j k).
Proof.
  intros mb32 i j k [_ P] Hi Hj Hk. destruct (P i j (conj Hi Hj)) as (W0 & W1 & _). destruct k as [|[|k]]; auto; lia.
Qed.
(** the argument x << 24 as unsigned long *)
Lemma am_shl_vec : forall e x q (Q : mzd -> Prop), x < 256 -> q < 4 ->
  (forall v, okm 32 1 v -> (forall r, r < 32 -> bitat v r 0 = bits 32 (N.shiftl (N.of_nat x) (N.of_nat (24 - 8 * q))) r) -> Q v) ->
  wp (d <- am_shl false e (N.of_nat x) q ;; InitVecFromBit e d (mzd_init 32 1)) Q.
Proof.
  intros e x q Q Hx Hq HQ. unfold am_shl. destruct (Nat.eqb_spec q 0) as [->|]; cbn [andb].
  - destruct (N.leb_spec 128 (N.of_nat x)); cbn [bind].
    + apply (wp_vec_u e 32); [apply init_ok|left; lia|]. intros v Hv Ev. apply HQ; [exact Hv|]. intros r Hr. rewrite Ev by exact Hr.
      unfold bits. change (N.of_nat (24 - 8 * 0)) with 24%N.
      assert (E : forall u : ulong, exists k, (2 ^ ulbits u - 2 ^ 32 = k * 2 ^ 32)%N).
      { intros [|]; [exists 0%N|exists (2 ^ 32 - 1)%N]; reflexivity. }
      destruct (E (elong e)) as [k ->]. clear E.
      rewrite <- (N.mod_pow2_bits_low (k * 2 ^ 32 + N.shiftl (N.of_nat x) 24) 32) by lia.
      rewrite N.add_comm, N.mod_add by discriminate. apply N.mod_pow2_bits_low. lia.
    + apply (wp_vec_u e 32); [apply init_ok|left; lia|]. exact HQ.
  - cbn [bind]. apply (wp_vec_u e 32); [apply init_ok|left; lia|]. exact HQ.
Qed.
Lemma am_tables_wp : forall e mb32 ek t0 i j t, env_ok e -> pairs32 mb32 -> bytes 176 ek -> i < 9 -> j < 4 ->
  id_at (tMixIn t) i j ->
  zmixinv mb32 ek t0 (fun i' j' _ => i' < i \/ i' = i /\ j' / 4 < j) t ->
  wp (am_tables false e mb32 i j t) (zmixinv mb32 ek t0 (fun i' j' _ => i' < i \/ i' = i /\ j' / 4 < S j)).
Proof.
  intros e mb32 ek t0 i j t HE Hp He Hi Hj HI HT. unfold am_tables.
  apply wp_for_up with (I := fun x t => id_at (tMixIn t) i j /\
    zmixinv mb32 ek t0 (fun i' j' x' => i' < i \/ i' = i /\ (j' / 4 < j \/ j' / 4 = j /\ x' < x)) t); [lia| | |].
  - split; auto. eapply zmixinv_mono; [exact HT|]. cbv beta. intros; lia.
  - clear t HI HT. intros x t _ Hx [HI HT]. destruct (Nat.ltb_spec i 9); [|lia].
    pose proof Hp as [DM _]. rewrite !(get3_ok mzd nomz 10 4 2) by (auto; lia). cbn [bind].
    destruct HT as [ETB ETT EX DTY DMI DMO Hd Hn].
    apply wp_bind. apply wp_for_up with (I := fun q TY => dims3 9 16 256 TY /\
      forall i' j' x', at3 0%N TY i' j' x' =
        if (Nat.eqb i' i && (Nat.eqb (j' / 4) j && Nat.ltb (j' mod 4) q && Nat.eqb x' x))%bool
        then tyt mb32 ek i' j' x' else at3 0%N (tTyiBoxes t) i' j' x'); [lia| | |].
    { split; auto. intros. change (Nat.ltb (j' mod 4) 0) with false. rewrite !andb_false_r. cbn [andb]. rewrite ?andb_false_r. reflexivity. }
    { intros q TY _ Hq [D H0]. apply wp_bind. apply wp_get3 with (d := 0%N) (n := 9) (m := 16) (l := 256); auto; [lia|].
      destruct (col_mod j q Hq) as [Cm Cd].
      rewrite Hn by (auto; lia).
      rewrite am_mul_ok by (auto; try lia; apply pairs32_ok; auto; lia). cbn [bind].
      apply wp_set3 with (d := 0%N) (n := 9) (m := 16) (l := 256); auto; [lia|]. intros TY' D' H' _. split; auto.
      intros i' j' x'. rewrite H', H0.
      pose proof (Nat.div_mod j' 4 ltac:(lia)) as DJ. pose proof (mod4 j') as MJ.
      destruct (Nat.eqb_spec i' i) as [->|]; cbn [andb]; auto.
      destruct (Nat.eqb_spec x' x) as [->|]; rewrite ?andb_true_r, ?andb_false_r; auto.
      destruct (Nat.eqb_spec j' (4 * j + q)) as [->|Hne].
      - rewrite Cm, Cd, Nat.eqb_refl. destruct (Nat.ltb_spec q (S q)); [|lia]. cbn [andb].
        unfold tyt. rewrite Cd. reflexivity.
      - destruct (Nat.eqb_spec (j' / 4) j); cbn [andb]; auto.
        destruct (Nat.ltb_spec (j' mod 4) q), (Nat.ltb_spec (j' mod 4) (S q)); auto; lia. }
    intros TY [D1 H1]. apply wp_bind. apply wp_for_up with (I := fun q MO => dims3 10 16 256 MO /\
      forall i' j' x', at3 0%N MO i' j' x' =
        if (Nat.eqb i' i && (Nat.eqb (j' / 4) j && Nat.ltb (j' mod 4) q && Nat.eqb x' x))%bool
        then mot mb32 i' j' x' else at3 0%N (tMixOut t) i' j' x'); [lia| | |].
    { split; auto. intros. change (Nat.ltb (j' mod 4) 0) with false. rewrite !andb_false_r. cbn [andb]. rewrite ?andb_false_r. reflexivity. }
    { intros q MO _ Hq [D H0]. destruct (col_mod j q Hq) as [Cm Cd].
      rewrite <- bind_assoc. apply wp_bind. apply am_shl_vec; auto. intros v Hv Ev.
      apply wp_bind. apply (wp_mm e 32 _ v (N.shiftl (N.of_nat x) (N.of_nat (24 - 8 * q)))); auto; try lia; [apply pairs32_ok; auto; lia|].
      intros y Hy Ey. apply wp_bind. eapply wp_mono; [apply get32_wp; exact Hy|]. intros d ->. rewrite Ey.
      rewrite mix_word_ok by (auto; apply (mm_lt 32)). cbn [bind].
      apply wp_set3 with (d := 0%N) (n := 10) (m := 16) (l := 256); auto; try lia. intros MO' D' H' _. split; auto.
      intros i' j' x'. rewrite H', H0.
      pose proof (Nat.div_mod j' 4 ltac:(lia)) as DJ. pose proof (mod4 j') as MJ.
      destruct (Nat.eqb_spec i' i) as [->|]; cbn [andb]; auto.
      destruct (Nat.eqb_spec x' x) as [->|]; rewrite ?andb_true_r, ?andb_false_r; auto.
      destruct (Nat.eqb_spec j' (4 * j + q)) as [->|Hne].
      - rewrite Cm, Cd, Nat.eqb_refl. destruct (Nat.ltb_spec q (S q)); [|lia]. cbn [andb].
        unfold mot. rewrite Cd, Cm. reflexivity.
      - destruct (Nat.eqb_spec (j' / 4) j); cbn [andb]; auto.
        destruct (Nat.ltb_spec (j' mod 4) q), (Nat.ltb_spec (j' mod 4) (S q)); auto; lia. }
    intros MO [D2 H2]. apply wp_ok. split; [exact HI|].
    split; cbn [tTBoxes tTyiBoxes tMixIn tTyiTables tMixOut tXor]; auto.
    + intros i' j' x' Hi' Hj' Hx' HD. rewrite H1, H2. pose proof (mod4 j') as MJ.
      destruct (Nat.ltb_spec (j' mod 4) 4); [|lia]. rewrite andb_true_r.
      destruct (Nat.eqb_spec i' i) as [->|], (Nat.eqb_spec (j' / 4) j), (Nat.eqb_spec x' x) as [->|]; cbn [andb]; auto; apply Hd; auto; lia.
    + intros i' j' x' Hi' Hj' Hx' HD. rewrite H1.
      destruct (Nat.eqb_spec i' i) as [->|], (Nat.eqb_spec (j' / 4) j), (Nat.eqb_spec x' x) as [->|]; cbn [andb];
        rewrite ?andb_false_r; auto; try (apply Hn; auto; lia).
      exfalso. apply HD. lia.
  - intros t' [_ HT']. eapply zmixinv_mono; [exact HT'|]. cbv beta. intros; lia.
Qed.

Lemma am_reset_9 : forall e mb8 i j MI, 9 <= i -> am_reset e mb8 i j MI = Ok MI.
Proof.
  intros e mb8 i j MI Hi. unfold am_reset. apply Cons.wp_eq.
  apply wp_for_up with (I := fun _ M => M = MI); [lia|auto| |auto].
  intros x M _ _ ->. destruct (Nat.ltb_spec i 9); [lia|]. reflexivity.
Qed.
Lemma am_tables_9 : forall b e mb32 i j t, 9 <= i -> am_tables b e mb32 i j t = Ok t.
Proof.
  intros b e mb32 i j t Hi. unfold am_tables. apply Cons.wp_eq.
  apply wp_for_up with (I := fun _ M => M = t); [lia|auto| |auto].
  intros x M _ _ ->. destruct (Nat.ltb_spec i 9); [lia|]. reflexivity.
Qed.

Lemma am_mix_wp : forall e mb32 mb8 ek t0, env_ok e -> pairs32 mb32 -> pairs8 mb8 -> bytes 176 ek ->
  zmixinv mb32 ek t0 (fun _ _ _ => False) t0 ->
  wp (am_mix false e mb32 mb8 t0) (zmixinv mb32 ek t0 (fun _ _ _ => True)).
Proof.
  intros e mb32 mb8 ek t0 HE Hp32 Hp8 He HT0. unfold am_mix.
  apply wp_for_up with (I := fun i t => zmixinv mb32 ek t0 (fun i' _ _ => i' < i) t); [lia| | |].
  - eapply zmixinv_mono; [exact HT0|]. cbv beta. intros; lia.
  - intros i t _ Hi HT.
    apply wp_for_up with (I := fun j t => zmixinv mb32 ek t0 (fun i' j' _ => i' < i \/ i' = i /\ j' / 4 < j) t); [lia| | |].
    + eapply zmixinv_mono; [exact HT|]. cbv beta. intros; lia.
    + clear t HT. intros j t _ Hj HT. destruct (Nat.lt_ge_cases i 9) as [H9|H9].
      * apply wp_bind. eapply wp_mono; [apply am_reset_wp; eauto; apply HT|]. intros MI HI.
        apply am_tables_wp; auto. destruct HT. split; cbn [tTBoxes tTyiBoxes tMixIn tTyiTables tMixOut tXor]; auto. apply HI.
      * rewrite am_reset_9 by auto. cbn [bind]. rewrite am_tables_9 by auto. apply wp_ok.
        assert (E : mkaes (tTBoxes t) (tTyiTables t) (tTyiBoxes t) (tMixIn t) (tMixOut t) (tXor t) = t) by (destruct t; reflexivity).
        rewrite E. eapply zmixinv_mono; [exact HT|]. cbv beta. intros i' j' x' Hi' Hj' Hx'. split; intros; lia.
    + intros t' HT'. eapply zmixinv_mono; [exact HT'|]. cbv beta. intros i' j' x' Hi' Hj' Hx'.
      assert (j' / 4 < 4) by (apply Nat.div_lt_upper_bound; lia). lia.
  - intros t' HT'. eapply zmixinv_mono; [exact HT'|]. cbv beta. intros; lia.
Qed.

(** ** am_computeTables *)

Definition ztab_for (ek : list N) (t : aestab) : Prop :=
  tab_typed t /\ tyi_ok (tTyiTables t) /\ xor_ok (tXor t) /\
  (forall i j x, i < 10 -> j < 16 -> x < 256 -> at3 0%N (tTBoxes t) i j x = tb ek i j x) /\
  exists mb32, pairs32 mb32 /\
    forall i j x, i < 9 -> j < 16 -> x < 256 ->
      at3 0%N (tTyiBoxes t) i j x = tyt mb32 ek i j x /\ at3 0%N (tMixOut t) i j x = mot mb32 i j x.

Lemma am_compute_wp : forall fuel e ek t s, env_ok e -> bytes 176 ek -> tab_typed t ->
  wp (am_computeTables false fuel e ek t s) (fun o =>
    (fair fuel 8 (erand e) -> fair fuel 32 (erand e) -> s mod 3 = 0 -> o <> None) /\
    forall ek' t' s', o = Some (ek', t', s') -> (s mod 3 = 0 -> s' mod 3 = 0) /\ shifted 10 ek ek' /\ ztab_for ek t').
Proof.
  intros fuel e ek t s HE He (DTB & DTT & DTY & DMI & DMO & DX). unfold am_computeTables. apply wp_bind.
  eapply wp_mono; [apply gen_TyiTables_wp; auto|]. intros TT HTT. apply wp_bind.
  eapply wp_mono; [apply am_bijections_wp; apply dims3_rep|]. intros [[[mb32 mb8] s1]|] [Hf HB].
  2:{ apply wp_ok. split; [|discriminate]. intros F8 F32 Hs _. exact (Hf F8 F32 Hs eq_refl). }
  destruct (HB mb32 mb8 s1 eq_refl) as (H3 & P32 & P8). clear HB Hf.
  apply wp_bind. eapply wp_mono.
  { apply (am_TBoxes_wp e mb8 ek (tMixOut t) (tXor t)); [exact HE|exact P8|auto|].
    split; cbn [tTBoxes tTyiBoxes tMixIn tTyiTables tMixOut tXor]; auto; intros; contradiction. }
  intros [ek' t1] [HS HT]. cbn [fst snd] in HS, HT. apply wp_bind.
  eapply wp_mono.
  { apply (am_mix_wp e mb32 mb8 ek t1); [exact HE|exact P32|exact P8|auto|].
    destruct HT as [TB TY MI TT1 EMO EX Htb Hty Hmi]. split; auto.
    - rewrite EMO. auto.
    - intros; contradiction. }
  intros t2 HM. apply wp_bind. eapply wp_mono.
  { apply gen_xorTable_wp. rewrite (mi_X _ _ _ _ _ HM), (ti_X _ _ _ _ _ _ _ HT). auto. }
  intros X HX. apply wp_ok. split; [discriminate|]. intros ek0 t0 s0 E0. injection E0 as <- <- <-. split; [exact H3|]. split; auto.
  destruct HM as [ETB ETT EX MTY MMI MMO Hd _]. destruct HT as [TB TY MI TT1 EMO EX1 Htb Hty Hmi].
  unfold ztab_for, tab_typed. cbn [tTBoxes tTyiBoxes tMixIn tTyiTables tMixOut tXor]. rewrite ETB, ETT.
  split; [refine (conj TB (conj (proj1 TT1) (conj MTY (conj MMI (conj MMO (proj1 HX))))))|].
  split; [exact TT1|]. split; [exact HX|]. split; [auto|].
  exists mb32. split; [exact P32|]. auto.
Qed.

(** ** Encryption by tables *)

Lemma mm_lxor4 : forall n M a b c d,
  N.lxor (N.lxor (N.lxor (mm n M a) (mm n M b)) (mm n M c)) (mm n M d) = mm n M (N.lxor (N.lxor (N.lxor a b) c) d).
Proof. intros. rewrite !mm_lxor. reflexivity. Qed.

Lemma am_round_wp : forall ek t i s, ztab_for ek t -> bytes 176 ek -> i < 9 -> bytes 16 s ->
  table_round t i s = Ok (MixColumns (SubBytes (AddRoundKey (ShiftRows s) (ShiftRows (rks ek i))))).
Proof.
  intros ek t i s0 HT He Hi Hs0. unfold table_round. rewrite shiftRows_ok by apply Hs0. cbn [bind].
  pose proof (ShiftRows_bytes _ Hs0) as Hs. remember (ShiftRows s0) as s eqn:Es. clear s0 Hs0 Es.
  set (Y := SubBytes (AddRoundKey s (ShiftRows (rks ek i)))).
  assert (BK : bytes 16 (ShiftRows (rks ek i))) by (apply ShiftRows_bytes, rks_bytes; auto; lia).
  assert (BY : bytes 16 Y) by (apply SubBytes_bytes, AddRoundKey_bytes; auto).
  assert (EY : forall k, k < 16 -> nth k Y 0%N = aes_sbox (N.lxor (nth k s 0%N) (sk ek i k))).
  { intros k Hk. unfold Y, SubBytes, AddRoundKey. assert (Dk : k / 4 < 4) by (apply Nat.div_lt_upper_bound; lia).
    rewrite nth_state, elt_state, !elt_mod by auto using mod4. reflexivity. }
  clearbody Y.
  destruct HT as ((DTB & DTT & DTY & DMI & DMO & DX) & _ & HX & _ & mb32 & Hp & HM).
  apply Cons.wp_eq.
  apply wp_for_up with (I := fun j s' => length s' = 16 /\ forall k, k < 16 ->
    nth k s' 0%N = if Nat.ltb (k / 4) j then nth k (MixColumns Y) 0%N else nth k s 0%N); [lia| | |].
  - split; [apply Hs|]. auto.
  - intros j s' _ Hj [L H]. cbv zeta.
    assert (CM : forall q, q < 4 -> (4 * j + q) mod 4 = q /\ (4 * j + q) / 4 = j) by (intros; apply col_mod; auto).
    assert (A : forall q, q < 4 -> (x <- aget s' (4 * j + q);; get3 (tTyiBoxes t) i (4 * j + q) (N.to_nat x))
      = Ok (mm 32 (at3 nomz mb32 i j 0) (tyi q (nth (4 * j + q) Y 0%N)))).
    { intros q Hq. destruct (CM q Hq) as [Cm Cd].
      rewrite (aget_ok _ s' _ 0%N) by lia. cbn [bind]. rewrite H by lia. rewrite Cd.
      destruct (Nat.ltb_spec j j); [lia|]. assert (B : (nth (4 * j + q) s 0 < 256)%N) by (apply nth_byte, Hs).
      rewrite (get3_ok N 0%N 9 16 256) by (auto; lia).
      destruct (HM i (4 * j + q) (N.to_nat (nth (4 * j + q) s 0%N))) as [-> _]; try lia.
      unfold tyt, ty, ent. rewrite Cm, Cd, N2Nat.id, EY by lia. reflexivity. }
    rewrite !A by lia. cbn [bind]. clear A.
    destruct Hp as [Mp Pp]. destruct (Pp i j ltac:(cbv beta; lia)) as (W0 & W1 & I01 & _).
    apply wp_bind. eapply wp_mono; [apply xor_nibbles_wp; auto|]. intros s1 [L1 H1].
    rewrite mm_lxor4 in H1.
    assert (BYk : forall k, (nth k Y 0 < 256)%N) by (intros; apply nth_byte, BY).
    remember (N.lxor (N.lxor (N.lxor (tyi 0 (nth (4 * j + 0) Y 0%N)) (tyi 1 (nth (4 * j + 1) Y 0%N)))
      (tyi 2 (nth (4 * j + 2) Y 0%N))) (tyi 3 (nth (4 * j + 3) Y 0%N))) as V eqn:EV.
    assert (BV : (V < 2 ^ 32)%N). { rewrite EV. repeat apply (WBSM4M.lxor_lt 32); apply tyi_bound; auto. }
    pose proof (wbyte_tyi _ _ _ _ (BYk (4 * j + 0)) (BYk (4 * j + 1)) (BYk (4 * j + 2)) (BYk (4 * j + 3))) as WV.
    cbv zeta in WV. rewrite <- EV in WV. clear EV.
    pose proof (mm_lt 32 (at3 nomz mb32 i j 0) V) as BW. specialize (I01 V BV).
    remember (mm 32 (at3 nomz mb32 i j 0) V) as W eqn:EW. clear EW. change (2 ^ N.of_nat 32)%N with (2 ^ 32)%N in *.
    assert (A : forall q, q < 4 -> (x <- aget s1 (4 * j + q);; get3 (tMixOut t) i (4 * j + q) (N.to_nat x))
      = Ok (mm 32 (at3 nomz mb32 i j 1) (N.shiftl (wbyte W q) (N.of_nat (24 - 8 * q))))).
    { intros q Hq. destruct (CM q Hq) as [Cm Cd].
      rewrite (aget_ok _ s1 _ 0%N) by lia. cbn [bind]. rewrite H1 by lia. rewrite Cd, Cm, Nat.eqb_refl.
      assert (B : (wbyte W q < 256)%N) by apply byte_bound.
      rewrite (get3_ok N 0%N 10 16 256) by (auto; lia).
      destruct (HM i (4 * j + q) (N.to_nat (wbyte W q))) as [_ ->]; try lia.
      unfold mot. rewrite Cm, Cd, N2Nat.id. reflexivity. }
    rewrite !A by lia. cbn [bind]. clear A.
    eapply wp_mono; [apply xor_nibbles_wp; auto|]. intros s2 [L2 H2]. split; auto.
    rewrite mm_lxor4 in H2.
    match type of H2 with context [mm 32 _ ?a] => assert (E : a = W) end.
    { unfold wbyte. change (24 - 8 * 0) with 24. change (24 - 8 * 1) with 16. change (24 - 8 * 2) with 8. change (24 - 8 * 3) with 0.
      change (3 - 0) with 3. change (3 - 1) with 2. change (3 - 2) with 1. change (3 - 3) with 0.
      change (N.of_nat 24) with 24%N. change (N.of_nat 16) with 16%N. change (N.of_nat 8) with 8%N. change (N.of_nat 3) with 3%N.
      change (N.of_nat 2) with 2%N. change (N.of_nat 1) with 1%N. change (N.of_nat 0) with 0%N.
      rewrite N.shiftl_0_r. rewrite word_lxor by apply byte_bound. apply word_bytes. auto. }
    rewrite E, I01 in H2. clear E. intros k Hk. rewrite H2, H1, H by auto.
    pose proof (Nat.div_mod k 4 ltac:(lia)) as DK. pose proof (mod4 k) as MK.
    destruct (Nat.eqb_spec (k / 4) j) as [E|E].
    + destruct (Nat.ltb_spec (k / 4) (S j)); [|lia]. unfold MixColumns. rewrite nth_state by auto. rewrite E.
      destruct WV as (V0 & V1 & V2 & V3). unfold elt. revert MK. generalize (k mod 4). intros r Hr.
      rewrite !(Nat.add_comm _ (4 * j)).
      do 4 (destruct r as [|r]; [assumption|]). lia.
    + destruct (Nat.ltb_spec (k / 4) j), (Nat.ltb_spec (k / 4) (S j)); auto; lia.
  - intros s' [L H]. apply list_ext with (d := 0%N); [rewrite L; symmetry; apply length_state|].
    intros k Hk. rewrite L in Hk. rewrite H by auto.
    assert (k / 4 < 4) by (apply Nat.div_lt_upper_bound; lia). destruct (Nat.ltb_spec (k / 4) 4); [auto|lia].
Qed.

Lemma am_encrypt_wp : forall ek t x o, ztab_for ek t -> bytes 176 ek -> bytes 16 x -> 16 <= length o ->
  wp (aes_128_table_encrypt t x o) (fun '(x', o') =>
    x' = aes_cipher (rks ek) x /\ written o o' 0 (aes_cipher (rks ek) x)).
Proof.
  intros ek t x o HT He Hx Ho. unfold aes_128_table_encrypt. apply wp_bind.
  apply wp_for_up with (I := fun i y => y = Pst (rks ek) i x); [lia|reflexivity| |].
  - intros i y _ Hi ->. rewrite (am_round_wp ek) by (auto; apply Pst_bytes; auto; intros; apply rks_bytes; auto; lia).
    reflexivity.
  - intros y Hy. assert (BP : bytes 16 y). { rewrite Hy. apply Pst_bytes; auto. intros. apply rks_bytes; auto; lia. }
    rewrite shiftRows_ok by apply BP. cbn [bind].
    pose proof (ShiftRows_bytes _ BP) as Bs. remember (ShiftRows y) as s eqn:Es.
    rewrite (fill16 (fun k => tb ek 9 k (N.to_nat (nth k s 0%N))) _ s
      (fun r c => N.lxor (elt (SubBytes (AddRoundKey s (ShiftRows (rks ek 9)))) r c) (elt (rks ek 10) r c))).
    + cbn [bind]. apply wp_bind. change (state _) with (AddRoundKey (SubBytes (AddRoundKey s (ShiftRows (rks ek 9)))) (rks ek 10)).
      rewrite Es, Hy. rewrite <- aes_cipher_P.
      assert (LC : length (aes_cipher (rks ek) x) = 16) by apply length_state.
      eapply wp_mono; [apply copy_wp; [rewrite LC; apply Nat.le_refl|exact Ho]|]. intros o' W.
      rewrite firstn_all2 in W by lia. apply wp_ok. split; [reflexivity|]. exact W.
    + apply Bs.
    + intros k cur Hk Lc H _. rewrite (proj1 Bs) in Lc. rewrite (aget_ok _ cur _ 0%N) by lia. cbn [bind]. rewrite H by lia.
      assert (B : (nth k s 0 < 256)%N) by (apply nth_byte, Bs).
      destruct HT as ((DTB & _) & _ & _ & HTB & _).
      rewrite (get3_ok N 0%N 10 16 256) by (auto; lia). rewrite HTB by lia. cbn [bind]. apply wp_aset; [lia|]. reflexivity.
    + intros k Hk. unfold tb, ent. cbn [Nat.eqb]. rewrite N2Nat.id.
      assert (Dk : k / 4 < 4) by (apply Nat.div_lt_upper_bound; lia).
      unfold SubBytes, AddRoundKey. rewrite !elt_state, !elt_mod by auto using mod4. reflexivity.
Qed.
