(** C100 and C101: the white-box AES example over M4RI. *)
From Coq Require Import Arith NArith ZArith List Bool Lia.
From Verif Require Import Base Spec ModelM4ri SpecM4ri ModelM4ri2 SpecM4ri2 ModelGf2 SpecGf2 Gf2d ModelSM4 SpecSM4 SM4 WBSM4 ModelAES SpecAES AES WBAES Main8 ModelAESM WBAESM.
Import ListNotations.
Opaque aes_cipher aes_round_key expanded.

(** C100: generating tables is defined for every content of the 176-byte buffer, of the global tables
    before and every random number generator; it ends if enough invertible matrices are drawn; the
    first ten round keys in the buffer are turned; and encryption with the tables is the cipher with
    the eleven round keys that were in the buffer (signed shifts wrapping) *)
Lemma C100_round_keys_main : forall fuel e rk t s, env_ok e -> (forall i, i < 11 -> bytes 16 (rk i)) -> tab_typed t ->
  exists o, am_computeTables false fuel e (concat (map rk (seq 0 11))) t s = Ok o /\
    (fair fuel 8 (erand e) -> fair fuel 32 (erand e) -> s mod 3 = 0 -> o <> None) /\
    forall ek' t' s', o = Some (ek', t', s') -> tab_typed t' /\ (s mod 3 = 0 -> s' mod 3 = 0) /\
      ek' = concat (map (fun i => if Nat.ltb i 10 then ShiftRows (rk i) else rk i) (seq 0 11)) /\
      forall x out, bytes 16 x -> 16 <= length out ->
        aes_128_table_encrypt t' x out = Ok (aes_cipher rk x, aes_cipher rk x ++ skipn 16 out).
Proof.
  intros fuel e rk t s HE Hk Ht. change (concat (map rk (seq 0 11))) with (flat rk). pose proof (flat_bytes rk Hk) as He.
  pose proof (am_compute_wp fuel e (flat rk) t s HE He Ht) as W. apply wp_exists in W.
  destruct W as (o & E & HF & H). exists o. split; [exact E|]. split; [exact HF|]. intros ek' t' s' Eo.
  destruct (H ek' t' s' Eo) as (H3 & (L & S1 & S2) & HT). split; [apply HT|]. split; [exact H3|]. split.
  - change (ek' = flat (turned 1 rk)). apply rks_ext.
    + rewrite L. apply He.
    + apply flat_bytes. apply turned_bytes. auto.
    + intros i Hi. rewrite rks_flat by (auto; apply turned_bytes; auto). unfold turned. destruct (Nat.ltb_spec i 10).
      * rewrite S1 by auto. rewrite rks_flat by auto. reflexivity.
      * rewrite S2 by auto. rewrite rks_flat by auto. reflexivity.
  - intros x out Hx Ho. apply Cons.wp_eq. eapply wp_mono; [apply (am_encrypt_wp (flat rk)); auto|]. intros [x' o'] [-> W].
    assert (EC : aes_cipher (rks (flat rk)) x = aes_cipher rk x) by (apply aes_cipher_ext; intros; apply rks_flat; auto).
    rewrite EC in *. assert (L' : length (aes_cipher rk x) = 16) by (apply aes_cipher_bytes; auto).
    apply written_app0 in W; [|lia]. rewrite L' in W. rewrite W. reflexivity.
Qed.
(** ... and so expandKey, computeTables, aes_128_table_encrypt is AES-128 *)
Lemma C100_wbaes_m4ri_main : forall fuel e key ek t s, env_ok e -> bytes 16 key -> length ek = 176 -> tab_typed t ->
  exists ek1 o, expandKey key ek = Ok ek1 /\ am_computeTables false fuel e ek1 t s = Ok o /\
    (fair fuel 8 (erand e) -> fair fuel 32 (erand e) -> s mod 3 = 0 -> o <> None) /\
    forall ek' t' s', o = Some (ek', t', s') -> forall x out, bytes 16 x -> 16 <= length out ->
      aes_128_table_encrypt t' x out = Ok (AES_encrypt key x, AES_encrypt key x ++ skipn 16 out).
Proof.
  intros fuel e key ek t s HE Hk He Ht.
  destruct (C100_round_keys_main fuel e (aes_round_key key) t s) as (o & E & HF & H); auto.
  { intros. apply aes_round_key_bytes; auto. }
  exists (concat (map (aes_round_key key) (seq 0 11))), o. split; [apply C52_expandKey_main; auto|]. split; [exact E|].
  split; [exact HF|]. intros ek' t' s' Eo. apply (H ek' t' s' Eo).
Qed.
Lemma Ok_inj : forall (A : Type) (a b : A), Ok a = Ok b -> a = b.
Proof. congruence. Qed.
(** the second call on the same buffer generates tables for the turned round keys; for the zero key
    they encrypt the zero block to something else than AES does *)
Lemma C100_second_call_refuted_main : exists key x, bytes 16 key /\ bytes 16 x /\
  forall fuel e t s ek1 ek2 t1 s1 ek3 t2 s2, env_ok e -> tab_typed t -> expandKey key (repeat 0%N 176) = Ok ek1 ->
    am_computeTables false fuel e ek1 t s = Ok (Some (ek2, t1, s1)) ->
    am_computeTables false fuel e ek2 t1 s1 = Ok (Some (ek3, t2, s2)) ->
    (exists o, aes_128_table_encrypt t1 x (repeat 0%N 16) = Ok (AES_encrypt key x, o)) /\
    ~ (exists o, aes_128_table_encrypt t2 x (repeat 0%N 16) = Ok (AES_encrypt key x, o)).
Proof.
  exists (repeat 0%N 16), (repeat 0%N 16). split; [apply zero_bytes|]. split; [apply zero_bytes|].
  intros fuel e t s ek1 ek2 t1 s1 ek3 t2 s2 HE Ht Ek. rewrite C52_expandKey_main in Ek by (apply zero_bytes || reflexivity).
  apply Ok_inj in Ek. intros E1 E2. subst ek1.
  set (rk := aes_round_key (repeat 0%N 16)) in *.
  assert (Hk : forall i, i < 11 -> bytes 16 (rk i)) by (intros; apply aes_round_key_bytes; auto; apply zero_bytes).
  destruct (C100_round_keys_main fuel e rk t s HE Hk Ht) as (o & Eo & _ & H1). rewrite E1 in Eo. injection Eo as <-.
  destruct (H1 ek2 t1 s1 eq_refl) as (Ht1 & _ & Ek2 & X1).
  destruct (C100_round_keys_main fuel e (turned 1 rk) t1 s1 HE (turned_bytes 1 rk Hk) Ht1) as (o & Eo & _ & H2).
  change (concat (map (turned 1 rk) (seq 0 11))) with (concat (map (fun i => if Nat.ltb i 10 then ShiftRows (rk i) else rk i) (seq 0 11))) in Eo.
  rewrite <- Ek2, E2 in Eo. injection Eo as <-. destruct (H2 ek3 t2 s2 eq_refl) as (_ & _ & _ & X2).
  specialize (X1 (repeat 0%N 16) (repeat 0%N 16) zero_bytes (Nat.le_refl 16)).
  specialize (X2 (repeat 0%N 16) (repeat 0%N 16) zero_bytes (Nat.le_refl 16)). split.
  - eexists. exact X1.
  - intros [o Ho]. rewrite X2 in Ho. apply Ok_fst in Ho. exact (zero_turned Ho).
Qed.
(** read as ISO C, the shift gMul(2, 64) << 24 is undefined, so computeTables is undefined for every
    key, state and random number generator *)
Lemma C100_strict_main : forall fuel e ek t s, am_computeTables true fuel e ek t s = UB.
Proof.
  intros fuel e ek t s. unfold am_computeTables.
  destruct (gen_TyiTables true (tTyiTables t)) as [TT|] eqn:E; [|reflexivity]. exfalso. unfold gen_TyiTables in E.
  apply (for_up_step _ _ _ _ _ _ 0) in E; [|lia]. destruct E as (c & c' & E). cbv beta in E.
  apply (for_up_step _ _ _ _ _ _ 64) in E; [|lia]. destruct E as (d & d' & E). cbv beta zeta in E.
  rewrite !gMul_ok in E by lia. cbn [bind] in E.
  assert (G : gmul 2 (N.of_nat 64) = 128%N) by (vm_compute; reflexivity). rewrite G in E. discriminate E.
Qed.
(** a random number generator with fuel 0, a key and the tables before the first call *)
Example C100_ex_main : env_ok fair_env /\ fair 0 8 (erand fair_env) /\ fair 0 32 (erand fair_env) /\
  bytes 16 c1_key /\ tab_typed tab0.
Proof.
  split; [apply fair_env_ok|]. split; [exact fair8|]. split; [exact fair32|]. exact C42_ex_main.
Qed.

(** C101: the T-boxes contain the key in the clear: there is a function that reads the AES key off the
    T-boxes of the first round, whatever random bijections were drawn *)
Lemma C101_key_in_tables_main : exists extract : list (list N) -> list N,
  forall fuel e key ek ek1 ek' t t' s s', env_ok e -> bytes 16 key -> length ek = 176 -> tab_typed t ->
    expandKey key ek = Ok ek1 -> am_computeTables false fuel e ek1 t s = Ok (Some (ek', t', s')) ->
    extract (nth 0 (tTBoxes t') []) = key.
Proof.
  exists (fun TB => unshift (map (fun j => isbox (nth 0 (nth j TB []) 0%N)) (seq 0 16))).
  intros fuel e key ek ek1 ek' t t' s s' HE Hk He Ht E1 E2. rewrite expandKey_ok in E1 by auto. injection E1 as <-.
  pose proof (expanded_bytes key Hk) as Be.
  pose proof (am_compute_wp fuel e (expanded key) t s HE Be Ht) as W. rewrite E2 in W. cbn [wp] in W.
  destruct W as [_ W]. destruct (W ek' t' s' eq_refl) as (_ & _ & HT).
  assert (BK : bytes 16 (rks (expanded key) 0)) by (apply rks_bytes; auto; lia).
  assert (TK : forall j, j < 16 -> isbox (at3 0%N (tTBoxes t') 0 j 0) = nth j (ShiftRows (rks (expanded key) 0)) 0%N).
  { intros j Hj. destruct HT as (_ & _ & _ & H & _). rewrite H by lia. unfold tb, ent. cbn [Nat.eqb N.of_nat]. rewrite N.lxor_0_l.
    apply isbox_ok. apply sk_bound; auto. lia. }
  rewrite (map_seq_ext _ (fun j => nth j (ShiftRows (rks (expanded key) 0)) 0%N)).
  2:{ intros j Hj. rewrite <- TK by auto. reflexivity. }
  rewrite map_nth_seq by apply length_ShiftRows.
  unfold unshift. change (Nat.iter 4 ShiftRows (rks (expanded key) 0) = key).
  rewrite ShiftRows_4 by auto. unfold rks. rewrite expanded_slice by lia. apply aes_round_key_0. auto.
Qed.
(** the hypotheses are met for every key: with a fair generator the call returns tables *)
Example C101_ex_main : forall key t, bytes 16 key -> tab_typed t ->
  exists ek1 ek' t' s', expandKey key (repeat 0%N 176) = Ok ek1 /\
    am_computeTables false 0 fair_env ek1 t 0 = Ok (Some (ek', t', s')).
Proof.
  intros key t Hk Ht. destruct (C100_wbaes_m4ri_main 0 fair_env key (repeat 0%N 176) t 0 fair_env_ok Hk eq_refl Ht)
    as (ek1 & o & E1 & E2 & HF & _). specialize (HF fair8 fair32 eq_refl).
  destruct o as [[[ek' t'] s']|]; [|contradiction]. exists ek1, ek', t', s'. auto.
Qed.
