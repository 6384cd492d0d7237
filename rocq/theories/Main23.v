(** C102 to C104: the white-box SM4 and AES examples over NTL. *)
From Coq Require Import Arith NArith ZArith List Bool Lia.
From Verif Require Import Base Spec SpecGf2 ModelNtl SpecNtl Ntl2 NtlEx ModelSM4 SpecSM4 SM4 WBSM4 ModelSM4N WBSM4N ModelAES SpecAES AES WBAES Main8 ModelAESN WBAESN.
Import ListNotations.
Opaque aes_cipher aes_round_key expanded.

(** C102: generating tables is defined for every key, every content of the global arrays before and
    every sequence of random bits, and encryption with the tables is SM4 *)
Lemma C102_wbsm4_ntl_main : forall fuel nt key g c s, ntl_ok nt -> bytes 16 key ->
  nglob_dims g -> dims3 32 4 256 (kS g) -> nctx_dims c ->
  exists o, n_gen_tables fuel nt key g c s = Ok o /\
    forall g' c' s', o = Some (g', c', s') -> nglob_dims g' /\ dims3 32 4 256 (kS g') /\ nctx_dims c' /\
      forall IN OUT, bytes 16 IN -> length OUT = 16 -> n_wb_enc nt IN OUT c' = Ok (SM4_encrypt key IN).
Proof.
  intros fuel nt key g c s HE HK HG DS HC.
  destruct (wp_exists _ _ _ (n_wb_correct fuel nt key g c s HE HK HG DS HC)) as (o & E & H). exists o. split; [exact E|].
  intros g' c' s' ->. exact H.
Qed.
(** ... and it ends, with the same tables for every sufficient number of tries, if the random bits
    contain an invertible matrix again and again *)
Lemma C102_ends_main : forall nt key g c s, ntl_ok nt -> bytes 16 key ->
  nglob_dims g -> dims3 32 4 256 (kS g) -> nctx_dims c -> always (trand nt) 8 -> always (trand nt) 32 ->
  exists f0 g' c' s', forall f, f0 <= f -> n_gen_tables f nt key g c s = Ok (Some (g', c', s')).
Proof. exact n_gen_tables_some. Qed.
Definition ng0 : nglob :=
  mkng (repeat (repeat naff 2) 36) (repeat (repeat (repeat naff 2) 5) 36) (repeat (repeat naff 2) 36)
    (repeat (repeat (repeat 0%N 256) 4) 32).
Definition nc0 : nctx :=
  mknx (repeat (repeat naff 3) 32) (repeat naff 32) (repeat naff 32) (repeat naff 4) (repeat naff 4)
    (repeat (repeat (repeat 0%N 256) 4) 32).
(** a determinant and an inverse, random bits, and the arrays before the first call *)
Example C102_ex_main : ntl_ok ex_nt /\ always (trand ex_nt) 8 /\ always (trand ex_nt) 32 /\
  bytes 16 (map N.of_nat (seq 0 16)) /\ nglob_dims ng0 /\ dims3 32 4 256 (kS ng0) /\ nctx_dims nc0.
Proof.
  split; [apply ex_nt_ok|]. split; [exact ex_always8|]. split; [exact ex_always32|].
  split; [split; [reflexivity|repeat constructor]|].
  split; [split; [apply dims2_rep|split; [apply dims3_rep|apply dims2_rep]]|]. split; [apply dims3_rep|].
  split; [apply dims2_rep|]. split; [reflexivity|]. split; [reflexivity|]. split; [reflexivity|]. split; [reflexivity|]. apply dims3_rep.
Qed.

(** C103: generating tables is defined for every content of the 176-byte buffer, of the global tables
    before and every sequence of random bits; the first ten round keys in the buffer are turned; and
    encryption with the tables is the cipher with the eleven round keys that were in the buffer *)
Lemma C103_round_keys_main : forall fuel nt rk t s, ntl_ok nt -> (forall i, i < 11 -> bytes 16 (rk i)) -> tab_typed t ->
  exists o, ax_computeTables fuel nt (concat (map rk (seq 0 11))) t s = Ok o /\
    forall ek' t' s', o = Some (ek', t', s') -> tab_typed t' /\
      ek' = concat (map (fun i => if Nat.ltb i 10 then ShiftRows (rk i) else rk i) (seq 0 11)) /\
      forall x out, bytes 16 x -> 16 <= length out ->
        aes_128_table_encrypt t' x out = Ok (aes_cipher rk x, aes_cipher rk x ++ skipn 16 out).
Proof.
  intros fuel nt rk t s HE Hk Ht. change (concat (map rk (seq 0 11))) with (flat rk). pose proof (flat_bytes rk Hk) as He.
  pose proof (ax_compute_wp fuel nt (flat rk) t s HE He Ht) as W. apply wp_exists in W.
  destruct W as (o & E & H). exists o. split; [exact E|]. intros ek' t' s' Eo.
  destruct (H ek' t' s' Eo) as ((L & S1 & S2) & HT). split; [apply HT|]. split.
  - change (ek' = flat (turned 1 rk)). apply rks_ext.
    + rewrite L. apply He.
    + apply flat_bytes. apply turned_bytes. auto.
    + intros i Hi. rewrite rks_flat by (auto; apply turned_bytes; auto). unfold turned. destruct (Nat.ltb_spec i 10).
      * rewrite S1 by auto. rewrite rks_flat by auto. reflexivity.
      * rewrite S2 by auto. rewrite rks_flat by auto. reflexivity.
  - intros x out Hx Ho. apply Cons.wp_eq. eapply wp_mono; [apply (ax_encrypt_wp (flat rk)); auto|]. intros [x' o'] [-> W].
    assert (EC : aes_cipher (rks (flat rk)) x = aes_cipher rk x) by (apply aes_cipher_ext; intros; apply rks_flat; auto).
    rewrite EC in *. assert (L' : length (aes_cipher rk x) = 16) by (apply aes_cipher_bytes; auto).
    apply written_app0 in W; [|lia]. rewrite L' in W. rewrite W. reflexivity.
Qed.
(** ... and so expandKey, computeTables, aes_128_table_encrypt is AES-128 *)
Lemma C103_wbaes_ntl_main : forall fuel nt key ek t s, ntl_ok nt -> bytes 16 key -> length ek = 176 -> tab_typed t ->
  exists ek1 o, expandKey key ek = Ok ek1 /\ ax_computeTables fuel nt ek1 t s = Ok o /\
    forall ek' t' s', o = Some (ek', t', s') -> forall x out, bytes 16 x -> 16 <= length out ->
      aes_128_table_encrypt t' x out = Ok (AES_encrypt key x, AES_encrypt key x ++ skipn 16 out).
Proof.
  intros fuel nt key ek t s HE Hk He Ht.
  destruct (C103_round_keys_main fuel nt (aes_round_key key) t s) as (o & E & H); auto.
  { intros. apply aes_round_key_bytes; auto. }
  exists (concat (map (aes_round_key key) (seq 0 11))), o. split; [apply C52_expandKey_main; auto|]. split; [exact E|].
  intros ek' t' s' Eo. apply (H ek' t' s' Eo).
Qed.
(** ... which ends if the random bits contain an invertible matrix again and again *)
Lemma C103_ends_main : forall nt ek t s, ntl_ok nt -> bytes 176 ek -> tab_typed t ->
  always (trand nt) 8 -> always (trand nt) 32 ->
  exists f0 ek' t' s', forall f, f0 <= f -> ax_computeTables f nt ek t s = Ok (Some (ek', t', s')).
Proof. exact ax_compute_some. Qed.
Lemma Ok_inj : forall (A : Type) (a b : A), Ok a = Ok b -> a = b.
Proof. congruence. Qed.
(** the second call on the same buffer generates tables for the turned round keys; for the zero key
    they encrypt the zero block to something else than AES does *)
Lemma C103_second_call_refuted_main : exists key x, bytes 16 key /\ bytes 16 x /\
  forall fuel nt t s ek1 ek2 t1 s1 ek3 t2 s2, ntl_ok nt -> tab_typed t -> expandKey key (repeat 0%N 176) = Ok ek1 ->
    ax_computeTables fuel nt ek1 t s = Ok (Some (ek2, t1, s1)) ->
    ax_computeTables fuel nt ek2 t1 s1 = Ok (Some (ek3, t2, s2)) ->
    (exists o, aes_128_table_encrypt t1 x (repeat 0%N 16) = Ok (AES_encrypt key x, o)) /\
    ~ (exists o, aes_128_table_encrypt t2 x (repeat 0%N 16) = Ok (AES_encrypt key x, o)).
Proof.
  exists (repeat 0%N 16), (repeat 0%N 16). split; [apply zero_bytes|]. split; [apply zero_bytes|].
  intros fuel nt t s ek1 ek2 t1 s1 ek3 t2 s2 HE Ht Ek. rewrite C52_expandKey_main in Ek by (apply zero_bytes || reflexivity).
  apply Ok_inj in Ek. intros E1 E2. subst ek1.
  set (rk := aes_round_key (repeat 0%N 16)) in *.
  assert (Hk : forall i, i < 11 -> bytes 16 (rk i)) by (intros; apply aes_round_key_bytes; auto; apply zero_bytes).
  destruct (C103_round_keys_main fuel nt rk t s HE Hk Ht) as (o & Eo & H1). rewrite E1 in Eo. injection Eo as <-.
  destruct (H1 ek2 t1 s1 eq_refl) as (Ht1 & Ek2 & X1).
  destruct (C103_round_keys_main fuel nt (turned 1 rk) t1 s1 HE (turned_bytes 1 rk Hk) Ht1) as (o & Eo & H2).
  change (concat (map (turned 1 rk) (seq 0 11))) with (concat (map (fun i => if Nat.ltb i 10 then ShiftRows (rk i) else rk i) (seq 0 11))) in Eo.
  rewrite <- Ek2, E2 in Eo. injection Eo as <-. destruct (H2 ek3 t2 s2 eq_refl) as (_ & _ & X2).
  specialize (X1 (repeat 0%N 16) (repeat 0%N 16) zero_bytes (Nat.le_refl 16)).
  specialize (X2 (repeat 0%N 16) (repeat 0%N 16) zero_bytes (Nat.le_refl 16)). split.
  - eexists. exact X1.
  - intros [o Ho]. rewrite X2 in Ho. apply Ok_fst in Ho. exact (zero_turned Ho).
Qed.
(** a determinant and an inverse, random bits, a key and the tables before the first call *)
Example C103_ex_main : ntl_ok ex_nt /\ always (trand ex_nt) 8 /\ always (trand ex_nt) 32 /\ bytes 16 c1_key /\ tab_typed tab0.
Proof. split; [apply ex_nt_ok|]. split; [exact ex_always8|]. split; [exact ex_always32|]. exact C42_ex_main. Qed.

(** C104: the T-boxes contain the key in the clear: there is a function that reads the AES key off the
    T-boxes of the first round, whatever random bijections were drawn *)
Lemma C104_key_in_tables_main : exists extract : list (list N) -> list N,
  forall fuel nt key ek ek1 ek' t t' s s', ntl_ok nt -> bytes 16 key -> length ek = 176 -> tab_typed t ->
    expandKey key ek = Ok ek1 -> ax_computeTables fuel nt ek1 t s = Ok (Some (ek', t', s')) ->
    extract (nth 0 (tTBoxes t') []) = key.
Proof.
  exists (fun TB => unshift (map (fun j => isbox (nth 0 (nth j TB []) 0%N)) (seq 0 16))).
  intros fuel nt key ek ek1 ek' t t' s s' HE Hk He Ht E1 E2. rewrite expandKey_ok in E1 by auto. injection E1 as <-.
  pose proof (expanded_bytes key Hk) as Be.
  pose proof (ax_compute_wp fuel nt (expanded key) t s HE Be Ht) as W. rewrite E2 in W. cbn [wp] in W.
  destruct (W ek' t' s' eq_refl) as (_ & HT).
  assert (BK : bytes 16 (rks (expanded key) 0)) by (apply rks_bytes; auto; lia).
  assert (TK : forall j, j < 16 -> isbox (at3 0%N (tTBoxes t') 0 j 0) = nth j (ShiftRows (rks (expanded key) 0)) 0%N).
  { intros j Hj. destruct HT as (_ & _ & _ & H & _). rewrite H by lia. unfold tb, ent. cbn [Nat.eqb N.of_nat]. rewrite N.lxor_0_l.
    apply isbox_ok. apply sk_bound; auto. lia. }
  rewrite (map_seq_ext _ (fun j => nth j (ShiftRows (rks (expanded key) 0)) 0%N)).
  2:{ intros j Hj. rewrite <- TK by auto. reflexivity. }
  rewrite map_nth_seq by apply length_ShiftRows.
  unfold unshift. change (Nat.iter 4 ShiftRows (rks (expanded key) 0) = key).
  rewrite ShiftRows_4 by auto. unfold rks. rewrite expanded_slice by lia. apply aes_round_key_0. auto.
Qed.
(** the hypotheses are met for every key: with the bits above the call returns tables *)
Example C104_ex_main : forall key t, bytes 16 key -> tab_typed t ->
  exists f ek1 ek' t' s', expandKey key (repeat 0%N 176) = Ok ek1 /\
    ax_computeTables f ex_nt ek1 t 0 = Ok (Some (ek', t', s')).
Proof.
  intros key t Hk Ht. destruct (C103_ends_main ex_nt (expanded key) t 0 ex_nt_ok (expanded_bytes key Hk) Ht ex_always8 ex_always32)
    as (f & ek' & t' & s' & E). exists f, (expanded key), ek', t', s'. split; [apply expandKey_ok; auto|apply E; lia].
Qed.
