(** Final form of the properties C42, C43 and C52 to C57.  tools/gen_props.py copies the
    statements (names without the suffix _main) to Properties8.v. *)
From Coq Require Import Arith NArith ZArith List Bool Lia.
From Verif Require Import Base Tables Model Spec LinAlg Mem Cons Check ModelSM4 SpecSM4 SM4 WBSM4 ModelAES SpecAES AES WBAES.
Import ListNotations.
Opaque aes_cipher aes_round_key expanded.

(** ** Output buffers and lists of round keys *)

Lemma written_app0 : forall o o' r, written o o' 0 r -> length r <= length o -> o' = r ++ skipn (length r) o.
Proof.
  intros o o' r [L H] Hr. apply list_ext with (d := 0%N); [rewrite app_length, skipn_length; lia|].
  intros i Hi. rewrite H. cbn [Nat.leb andb]. rewrite Nat.sub_0_r. destruct (Nat.ltb_spec i (0 + length r)) as [Hl|Hl].
  - rewrite app_nth1 by lia. reflexivity.
  - rewrite app_nth2 by lia. rewrite nth_skipn. f_equal. lia.
Qed.
Definition flat (rk : nat -> list N) : list N := concat (map rk (seq 0 11)).
Lemma slice_concat : forall (rk : nat -> list N) m i, (forall k, length (rk k) = 16) -> forall a, i < m ->
  firstn 16 (skipn (16 * i) (concat (map rk (seq a m)))) = rk (a + i).
Proof.
  intros rk m i H. revert i. induction m as [|m IH]; intros i a Hi; [lia|]. cbn [seq map concat].
  destruct i as [|i].
  - rewrite Nat.mul_0_r, Nat.add_0_r. cbn [skipn]. rewrite firstn_app, H. rewrite firstn_all2 by (rewrite H; auto).
    rewrite Nat.sub_diag. cbn [firstn]. apply app_nil_r.
  - replace (16 * S i) with (length (rk a) + 16 * i) by (rewrite H; lia).
    rewrite skipn_app. replace (length (rk a) + 16 * i - length (rk a)) with (16 * i) by lia.
    rewrite skipn_all2 by lia. rewrite app_nil_l. rewrite IH by lia. f_equal. lia.
Qed.
Lemma length_concat16 : forall (rk : nat -> list N) m a, (forall k, length (rk k) = 16) -> length (concat (map rk (seq a m))) = 16 * m.
Proof. intros rk m. induction m as [|m IH]; intros a H; [reflexivity|]. cbn [seq map concat]. rewrite app_length, H, IH by auto. lia. Qed.
Definition pad (rk : nat -> list N) (i : nat) : list N := if Nat.ltb i 11 then rk i else repeat 0%N 16.
Lemma flat_pad : forall rk, flat rk = flat (pad rk).
Proof. reflexivity. Qed.
Lemma pad_length : forall rk, (forall i, i < 11 -> bytes 16 (rk i)) -> forall k, length (pad rk k) = 16.
Proof. intros rk H k. unfold pad. destruct (Nat.ltb_spec k 11); [apply H; auto|reflexivity]. Qed.
Lemma rks_flat : forall rk i, (forall i, i < 11 -> bytes 16 (rk i)) -> i < 11 -> rks (flat rk) i = rk i.
Proof.
  intros rk i H Hi. rewrite flat_pad. unfold rks, slice, flat. rewrite slice_concat by (auto; apply pad_length; auto).
  unfold pad. cbn [Nat.add]. destruct (Nat.ltb_spec i 11); [reflexivity|lia].
Qed.
Lemma flat_bytes : forall rk, (forall i, i < 11 -> bytes 16 (rk i)) -> bytes 176 (flat rk).
Proof.
  intros rk H. split.
  - rewrite flat_pad. unfold flat. rewrite length_concat16 by (apply pad_length; auto). reflexivity.
  - unfold flat. apply Forall_forall. intros x Hx. apply in_concat in Hx. destruct Hx as (l & Hl & Hx).
    apply in_map_iff in Hl. destruct Hl as (i & <- & Hi). apply in_seq in Hi.
    destruct (H i) as [_ F]; [lia|]. rewrite Forall_forall in F. auto.
Qed.
(** 176 bytes are determined by their eleven blocks *)
Lemma rks_ext : forall a b, length a = 176 -> length b = 176 -> (forall i, i < 11 -> rks a i = rks b i) -> a = b.
Proof.
  intros a b La Lb H. apply list_ext with (d := 0%N); [congruence|]. intros k Hk.
  pose proof (Nat.div_mod k 16 ltac:(lia)) as D. pose proof (Nat.mod_upper_bound k 16 ltac:(lia)) as M.
  assert (k / 16 < 11) by (apply Nat.div_lt_upper_bound; lia).
  rewrite D. rewrite <- !rks_nth by auto. rewrite H by auto. reflexivity.
Qed.

(** C52: expandKey is the key expansion of FIPS 197, whatever the buffer contained *)
Lemma C52_expandKey_main : forall key ek, bytes 16 key -> length ek = 176 ->
  expandKey key ek = Ok (concat (map (aes_round_key key) (seq 0 11))).
Proof.
  intros key ek Hk He. rewrite expandKey_ok by auto.
  change (concat (map (aes_round_key key) (seq 0 11))) with (flat (aes_round_key key)).
  enough (E : expanded key = flat (aes_round_key key)) by (rewrite E; reflexivity).
  assert (B : forall i, i < 11 -> bytes 16 (aes_round_key key i)) by (intros; apply aes_round_key_bytes; auto).
  apply rks_ext; [apply expanded_bytes; auto|apply flat_bytes; auto|]. intros i Hi.
  rewrite rks_flat by auto. apply expanded_slice. auto.
Qed.
(** FIPS 197, appendix A.1: key and last round key *)
Definition fips_key : list N :=
  [0x2b; 0x7e; 0x15; 0x16; 0x28; 0xae; 0xd2; 0xa6; 0xab; 0xf7; 0x15; 0x88; 0x09; 0xcf; 0x4f; 0x3c]%N.
Example C52_ex_main : bytes 16 fips_key /\ aes_round_key fips_key 10 =
  [0xd0; 0x14; 0xf9; 0xa8; 0xc9; 0xee; 0x25; 0x89; 0xe1; 0x3f; 0x0c; 0xc8; 0xb6; 0x63; 0x0c; 0xa6]%N.
Proof. split; [split; [reflexivity|repeat constructor]|]. vm_compute. reflexivity. Qed.

(** C53: aes_128_encrypt computes AES-128 with the all-zero key (there is no other), writes 16
    bytes of the output buffer, and replaces the plaintext in the input buffer by the ciphertext *)
Lemma C53_aes_encrypt_main : forall x o, bytes 16 x -> 16 <= length o ->
  aes_128_encrypt x o = Ok (AES_encrypt (repeat 0%N 16) x, AES_encrypt (repeat 0%N 16) x ++ skipn 16 o).
Proof.
  intros x o Hx Ho. apply wp_eq. eapply wp_mono; [apply aes_128_encrypt_wp; auto|]. intros [x' o'] [-> W].
  assert (L : length (AES_encrypt (repeat 0%N 16) x) = 16).
  { apply aes_cipher_bytes; auto. intros. apply aes_round_key_bytes; auto. apply zero_bytes. }
  apply written_app0 in W; [|lia]. rewrite L in W. rewrite W. reflexivity.
Qed.
(** FIPS 197, appendix C.1 *)
Definition c1_key : list N := [0; 1; 2; 3; 4; 5; 6; 7; 8; 9; 10; 11; 12; 13; 14; 15]%N.
Definition c1_pt : list N := [0; 17; 34; 51; 68; 85; 102; 119; 136; 153; 170; 187; 204; 221; 238; 255]%N.
Definition c1_ct : list N :=
  [0x69; 0xc4; 0xe0; 0xd8; 0x6a; 0x7b; 0x04; 0x30; 0xd8; 0xcd; 0xb7; 0x80; 0x70; 0xb4; 0xc5; 0x5a]%N.
Example C53_ex_main : AES_encrypt c1_key c1_pt = c1_ct /\ bytes 16 c1_pt /\
  exists c, aes_128_encrypt c1_pt (repeat 0%N 17) = Ok (c, c ++ [0%N]) /\ c <> c1_pt.
Proof.
  split; [vm_compute; reflexivity|]. split; [split; [reflexivity|repeat constructor]|].
  exists [200; 163; 49; 255; 142; 221; 61; 177; 117; 225; 84; 93; 190; 251; 118; 11]%N.
  split; [vm_compute; reflexivity|]. discriminate.
Qed.

(** C42: generating tables is defined for every content of the 176-byte buffer, of the random
    generator and of the global tables before, and encryption with the tables is the cipher with
    the eleven round keys in the buffer (signed shifts wrapping, see C55) *)
Lemma C42_round_keys_main : forall e rk t s, (forall i, i < 11 -> bytes 16 (rk i)) -> tab_typed t ->
  exists ek' t' s', computeTables false e (concat (map rk (seq 0 11))) t s = Ok (ek', t', s') /\ tab_typed t' /\
    forall x o, bytes 16 x -> 16 <= length o ->
      aes_128_table_encrypt t' x o = Ok (aes_cipher rk x, aes_cipher rk x ++ skipn 16 o).
Proof.
  intros e rk t s Hk Ht. change (concat (map rk (seq 0 11))) with (flat rk). pose proof (flat_bytes rk Hk) as He.
  pose proof (computeTables_wp e (flat rk) t s He Ht) as W. apply wp_exists in W.
  destruct W as ([[ek' t'] s'] & E & HS & HT). exists ek', t', s'. split; [exact E|]. split; [apply HT|].
  intros x o Hx Ho. apply wp_eq. eapply wp_mono; [apply (table_encrypt_wp e (flat rk)); auto|]. intros [x' o'] [-> W].
  assert (EC : aes_cipher (rks (flat rk)) x = aes_cipher rk x) by (apply aes_cipher_ext; intros; apply rks_flat; auto).
  rewrite EC in *. assert (L : length (aes_cipher rk x) = 16) by (apply aes_cipher_bytes; auto).
  apply written_app0 in W; [|lia]. rewrite L in W. rewrite W. reflexivity.
Qed.
(** ... and so expandKey, computeTables, aes_128_table_encrypt is AES-128 *)
Lemma C42_wbaes_main : forall e key ek t s, bytes 16 key -> length ek = 176 -> tab_typed t ->
  exists ek1 ek' t' s', expandKey key ek = Ok ek1 /\ computeTables false e ek1 t s = Ok (ek', t', s') /\
    forall x o, bytes 16 x -> 16 <= length o ->
      aes_128_table_encrypt t' x o = Ok (AES_encrypt key x, AES_encrypt key x ++ skipn 16 o).
Proof.
  intros e key ek t s Hk He Ht.
  destruct (C42_round_keys_main e (aes_round_key key) t s) as (ek' & t' & s' & E & _ & H); auto.
  { intros. apply aes_round_key_bytes; auto. }
  exists (concat (map (aes_round_key key) (seq 0 11))), ek', t', s'. split; [apply C52_expandKey_main; auto|]. auto.
Qed.
Definition tab0 : aestab :=
  mkaes (repeat (repeat (repeat 0%N 256) 16) 10) (repeat (repeat 0%N 256) 4) (repeat (repeat (repeat 0%N 256) 16) 9)
    (repeat (repeat (repeat 0%N 256) 16) 10) (repeat (repeat (repeat 0%N 256) 16) 10)
    (repeat (repeat (repeat (repeat 0%N 16) 16) 96) 9).
Lemma dims2_r : forall A (x : A) n m, dims2 n m (repeat (repeat x m) n).
Proof. intros. split; [apply repeat_length|]. intros. rewrite nth_rept by auto. apply repeat_length. Qed.
Lemma dims3_r : forall A (x : A) n m l, dims3 n m l (repeat (repeat (repeat x l) m) n).
Proof. intros. split; [apply repeat_length|]. intros. rewrite nth_rept by auto. apply dims2_r. Qed.
(** the global tables before the first call *)
Example C42_ex_main : bytes 16 c1_key /\ tab_typed tab0.
Proof.
  split; [split; [reflexivity|repeat constructor]|].
  refine (conj _ (conj _ (conj _ (conj _ (conj _ _))))); try apply dims3_r; try apply dims2_r.
  split; [apply repeat_length|]. intros. unfold tab0. cbn [tXor]. rewrite nth_rept by auto. apply dims3_r.
Qed.

(** C43: what a call leaves in the key buffer; n calls in a row on the same buffer, as in
    test/main.c, lines 80-84 *)
Fixpoint calls (n : nat) (e : endian) (ek : list N) (t : aestab) (s : world) : res (list N * aestab * world) :=
  match n with
  | O => Ok (ek, t, s)
  | S n' => ' (ek, t, s) <- calls n' e ek t s ;; computeTables false e ek t s
  end.
Definition turned (n : nat) (rk : nat -> list N) (i : nat) : list N :=
  if Nat.ltb i 10 then Nat.iter n ShiftRows (rk i) else rk i.
Lemma iter_bytes : forall n x, bytes 16 x -> bytes 16 (Nat.iter n ShiftRows x).
Proof. induction n as [|n IH]; intros x Hx; [exact Hx|]. apply ShiftRows_bytes, IH, Hx. Qed.
Lemma turned_bytes : forall n rk, (forall i, i < 11 -> bytes 16 (rk i)) -> forall i, i < 11 -> bytes 16 (turned n rk i).
Proof. intros n rk H i Hi. unfold turned. destruct (Nat.ltb i 10); auto. apply iter_bytes. auto. Qed.
Lemma calls_ok : forall n e rk t s, (forall i, i < 11 -> bytes 16 (rk i)) -> tab_typed t ->
  exists t' s', calls n e (flat rk) t s = Ok (flat (turned n rk), t', s') /\ tab_typed t'.
Proof.
  intros n e rk t s Hk Ht. induction n as [|n IH].
  - exists t, s. split; [reflexivity|exact Ht].
  - destruct IH as (t1 & s1 & E & Ht1). cbn [calls]. rewrite E. cbn [bind].
    pose proof (turned_bytes n rk Hk) as Bn. pose proof (flat_bytes _ Bn) as He.
    pose proof (computeTables_wp e (flat (turned n rk)) t1 s1 He Ht1) as W. apply wp_exists in W.
    destruct W as ([[ek' t'] s'] & E' & (L & S1 & S2) & HT). exists t', s'. rewrite E'. split; [|apply HT].
    enough (EE : ek' = flat (turned (S n) rk)) by (rewrite <- EE; reflexivity). apply rks_ext.
    + rewrite L. apply He.
    + apply flat_bytes. apply turned_bytes. auto.
    + intros i Hi. rewrite rks_flat by (auto; apply turned_bytes; auto). unfold turned. destruct (Nat.ltb_spec i 10).
      * rewrite S1 by auto. rewrite rks_flat by auto. unfold turned. destruct (Nat.ltb_spec i 10); [reflexivity|lia].
      * rewrite S2 by auto. rewrite rks_flat by auto. unfold turned. destruct (Nat.ltb_spec i 10); [lia|reflexivity].
Qed.
Lemma ShiftRows_4 : forall x, bytes 16 x -> Nat.iter 4 ShiftRows x = x.
Proof.
  intros x [L _]. do 16 (destruct x as [|? x]; [discriminate L|]). destruct x; [reflexivity|discriminate L].
Qed.
Lemma Nat_iter_S : forall n (x : list N), Nat.iter (S n) ShiftRows x = ShiftRows (Nat.iter n ShiftRows x).
Proof. reflexivity. Qed.
Lemma iter_4 : forall n x, bytes 16 x -> Nat.iter (4 * n) ShiftRows x = x.
Proof.
  induction n as [|n IH]; intros x Hx; [reflexivity|].
  replace (4 * S n) with (4 + 4 * n) by lia. cbn [Nat.add]. rewrite !Nat_iter_S, IH by auto. apply (ShiftRows_4 x Hx).
Qed.
(** each call turns the first ten round keys; after a multiple of four calls the buffer is what
    it was *)
Lemma C43_buffer_main : forall n e rk t s, (forall i, i < 11 -> bytes 16 (rk i)) -> tab_typed t ->
  exists t' s', calls n e (concat (map rk (seq 0 11))) t s =
    Ok (concat (map (fun i => if Nat.ltb i 10 then Nat.iter n ShiftRows (rk i) else rk i) (seq 0 11)), t', s') /\
    ((4 * (n / 4) = n) -> concat (map (fun i => if Nat.ltb i 10 then Nat.iter n ShiftRows (rk i) else rk i) (seq 0 11))
                        = concat (map rk (seq 0 11))).
Proof.
  intros n e rk t s Hk Ht. destruct (calls_ok n e rk t s Hk Ht) as (t' & s' & E & _). exists t', s'.
  split; [exact E|]. intros Hn. f_equal. apply map_ext_in. intros i Hi. apply in_seq in Hi.
  destruct (Nat.ltb i 10); auto. rewrite <- Hn. apply iter_4. apply Hk. lia.
Qed.
(** the tables of call n + 1 encrypt with the turned round keys *)
Lemma C43_tables_main : forall n e rk t s, (forall i, i < 11 -> bytes 16 (rk i)) -> tab_typed t ->
  exists ek' t' s', calls (S n) e (concat (map rk (seq 0 11))) t s = Ok (ek', t', s') /\
    forall x o, bytes 16 x -> 16 <= length o ->
      let c := aes_cipher (fun i => if Nat.ltb i 10 then Nat.iter n ShiftRows (rk i) else rk i) x in
      aes_128_table_encrypt t' x o = Ok (c, c ++ skipn 16 o).
Proof.
  intros n e rk t s Hk Ht. destruct (calls_ok n e rk t s Hk Ht) as (t1 & s1 & E & Ht1).
  destruct (C42_round_keys_main e (turned n rk) t1 s1) as (ek' & t' & s' & E' & _ & H); auto.
  { apply turned_bytes. auto. }
  exists ek', t', s'. split; [|exact H].
  change (concat (map rk (seq 0 11))) with (flat rk). cbn [calls]. rewrite E. exact E'.
Qed.
Lemma Ok_fst : forall A B (a a' : A) (b b' : B), Ok (a, b) = Ok (a', b') -> a = a'.
Proof. intros A B a a' b b' H. injection H. auto. Qed.
Lemma zero_turned : aes_cipher (fun i => if Nat.ltb i 10 then Nat.iter 1 ShiftRows (aes_round_key (repeat 0%N 16) i)
    else aes_round_key (repeat 0%N 16) i) (repeat 0%N 16) <> AES_encrypt (repeat 0%N 16) (repeat 0%N 16).
Proof.
  assert (E : (if list_eq_dec N.eq_dec (aes_cipher (fun i => if Nat.ltb i 10 then Nat.iter 1 ShiftRows (aes_round_key (repeat 0%N 16) i)
    else aes_round_key (repeat 0%N 16) i) (repeat 0%N 16)) (AES_encrypt (repeat 0%N 16) (repeat 0%N 16)) then true else false) = false)
    by (vm_compute; reflexivity).
  intros H. rewrite H in E. destruct (list_eq_dec N.eq_dec _ _) as [_|n] in E; [discriminate E|]. apply n. reflexivity.
Qed.
(** so the second call on the key buffer of the example (the zero key) generates tables for
    another key schedule: they encrypt the zero block to something else than AES does *)
Lemma C43_second_call_refuted_main : exists key x, bytes 16 key /\ bytes 16 x /\
  forall e t s ek1, tab_typed t -> expandKey key (repeat 0%N 176) = Ok ek1 ->
    exists ek2 t1 s1 ek3 t2 s2,
      computeTables false e ek1 t s = Ok (ek2, t1, s1) /\ computeTables false e ek2 t1 s1 = Ok (ek3, t2, s2) /\
      (exists o, aes_128_table_encrypt t1 x (repeat 0%N 16) = Ok (AES_encrypt key x, o)) /\
      ~ (exists o, aes_128_table_encrypt t2 x (repeat 0%N 16) = Ok (AES_encrypt key x, o)).
Proof.
  exists (repeat 0%N 16), (repeat 0%N 16). split; [apply zero_bytes|]. split; [apply zero_bytes|].
  intros e t s ek1 Ht Ek. rewrite C52_expandKey_main in Ek by (apply zero_bytes || reflexivity). injection Ek as <-.
  set (rk := aes_round_key (repeat 0%N 16)).
  assert (Hk : forall i, i < 11 -> bytes 16 (rk i)) by (intros; apply aes_round_key_bytes; auto; apply zero_bytes).
  destruct (C43_tables_main 0 e rk t s Hk Ht) as (ek2 & t1 & s1 & E1 & H1).
  destruct (C43_tables_main 1 e rk t s Hk Ht) as (ek3 & t2 & s2 & E2 & H2).
  cbn [calls bind] in E1. change (calls 2 e (concat (map rk (seq 0 11))) t s) with
    (bind (calls 1 e (concat (map rk (seq 0 11))) t s) (fun st => let '(ek, t, s) := st in computeTables false e ek t s)) in E2.
  cbn [calls bind] in E2. rewrite E1 in E2. cbn [bind] in E2.
  exists ek2, t1, s1, ek3, t2, s2. split; [exact E1|]. split; [exact E2|].
  specialize (H1 (repeat 0%N 16) (repeat 0%N 16) zero_bytes (Nat.le_refl 16)).
  specialize (H2 (repeat 0%N 16) (repeat 0%N 16) zero_bytes (Nat.le_refl 16)). cbv zeta in H1, H2. split.
  - eexists. rewrite H1. unfold AES_encrypt. fold rk.
    rewrite (aes_cipher_ext _ rk); [reflexivity|]. intros i Hi. destruct (Nat.ltb i 10); reflexivity.
  - intros [o Ho]. rewrite H2 in Ho. apply Ok_fst in Ho. exact (zero_turned Ho).
Qed.

(** ** initialize_aes_sbox *)

(** the writes of the loop *)
Fixpoint writes (fuel : nat) (p q : N) : option (list (nat * N)) :=
  match fuel with
  | O => None
  | S fuel' =>
      let '(p', q', v) := sbox_step p q in
      if N.eqb p' 1 then Some [(N.to_nat p', v)]
      else option_map (cons (N.to_nat p', v)) (writes fuel' p' q')
  end.
Definition put (s : list N) (w : nat * N) : list N := upd s (fst w) (snd w).
Lemma sbox_loop_writes : forall fuel p q s l, length s = 256 -> writes fuel p q = Some l ->
  Forall (fun w => fst w < 256) l -> sbox_loop fuel p q s = Some (Ok (fold_left put l s)).
Proof.
  induction fuel as [|fuel IH]; intros p q s l Hs E F; cbn [writes sbox_loop] in *; [discriminate|].
  destruct (sbox_step p q) as [[p' q'] v].
  assert (A : fst (N.to_nat p', v) < 256 -> aset s (N.to_nat p') v = Ok (put s (N.to_nat p', v))).
  { cbn [fst]. intros H. apply wp_eq. apply wp_aset; [lia|]. reflexivity. }
  destruct (N.eqb p' 1).
  - injection E as <-. inversion F; subst. rewrite A by auto. reflexivity.
  - destruct (writes fuel p' q') as [l'|] eqn:El; [|discriminate]. cbn [option_map] in E. injection E as <-.
    inversion F; subst. rewrite A by auto. cbn [fold_left]. apply IH; auto. unfold put. rewrite length_upd. auto.
Qed.
Lemma writes_none : forall fuel p q s, writes fuel p q = None ->
  sbox_loop fuel p q s = None \/ sbox_loop fuel p q s = Some UB.
Proof.
  induction fuel as [|fuel IH]; intros p q s E; cbn [writes sbox_loop] in *; auto.
  destruct (sbox_step p q) as [[p' q'] v]. destruct (N.eqb p' 1); [discriminate|].
  destruct (writes fuel p' q') as [l'|] eqn:El; [discriminate|].
  destruct (aset s (N.to_nat p') v) as [s'|]; auto.
Qed.
Lemma writes_more : forall fuel n p q l, writes fuel p q = Some l -> writes (fuel + n) p q = Some l.
Proof.
  induction fuel as [|fuel IH]; intros n p q l E; cbn [writes Nat.add] in *; [discriminate|].
  destruct (sbox_step p q) as [[p' q'] v]. destruct (N.eqb p' 1); auto.
  destruct (writes fuel p' q') as [l'|] eqn:El; [|discriminate]. rewrite (IH n _ _ _ El). exact E.
Qed.
(** the last value written to position k *)
Fixpoint last_at (k : nat) (l : list (nat * N)) (acc : option N) : option N :=
  match l with [] => acc | (i, v) :: l' => last_at k l' (if Nat.eqb k i then Some v else acc) end.
Lemma nth_puts : forall l s k acc, length s = 256 -> Forall (fun w => fst w < 256) l ->
  (forall v, acc = Some v -> nth k s 0%N = v) ->
  forall v, last_at k l acc = Some v -> nth k (fold_left put l s) 0%N = v.
Proof.
  induction l as [|[i x] l IH]; intros s k acc Hs F Ha v H; cbn [last_at fold_left] in *; [auto|].
  inversion F as [|? ? H1 H2]; subst. cbn [fst] in H1. eapply IH; [| exact H2 | |exact H].
  - unfold put. rewrite length_upd. auto.
  - intros v'. unfold put. cbn [fst snd]. rewrite nth_upd by lia. destruct (Nat.eqb k i); [congruence|]. apply Ha.
Qed.
Lemma length_puts : forall l s, length (fold_left put l s) = length s.
Proof. induction l as [|w l IH]; intros s; [reflexivity|]. cbn [fold_left]. rewrite IH. apply length_upd. Qed.
Lemma puts_all : forall l s (f : nat -> N), length s = 256 -> Forall (fun w => fst w < 256) l ->
  (forall k, k < 256 -> last_at k l None = Some (f k)) -> fold_left put l s = map f (seq 0 256).
Proof.
  intros l s f Hs F V. apply list_ext with (d := 0%N); [rewrite length_puts, map_length, seq_length; auto|].
  rewrite length_puts, Hs. intros k Hk. rewrite (nth_puts l s k None Hs F) with (v := f k); [|discriminate|auto].
  rewrite (nth_indep _ 0%N (f 0)) by (rewrite map_length, seq_length; lia). rewrite map_nth, seq_nth by lia. reflexivity.
Qed.
Lemma sbox_loop_def : forall fuel p q s, length s = 256 -> sbox_loop fuel p q s <> Some UB.
Proof.
  induction fuel as [|fuel IH]; intros p q s Hs; cbn [sbox_loop]; [discriminate|].
  destruct (sbox_step p q) as [[p' q'] v] eqn:Ep.
  assert (B : (p' < 256)%N).
  { unfold sbox_step in Ep. cbv zeta in Ep.
    match type of Ep with (?a, ?b, ?c) = _ => assert (E1 : p' = a) by congruence end. rewrite E1.
    apply N.mod_lt. discriminate. }
  assert (A : aset s (N.to_nat p') v = Ok (upd s (N.to_nat p') v)) by (apply wp_eq; apply wp_aset; [lia|reflexivity]).
  rewrite A. destruct (N.eqb p' 1); [discriminate|]. apply IH. rewrite length_upd. auto.
Qed.
Lemma sbox_init_gen : forall l tbl sbox fuel n, writes (S n) 1 1 = Some l -> writes n 1 1 = None ->
  Forall (fun w => fst w < 256) l ->
  (forall k, k < 256 -> last_at k (l ++ [(0, 0x63%N)]) None = Some (tbl k)) -> length sbox = 256 ->
  initialize_aes_sbox fuel sbox = if Nat.leb (S n) fuel then Some (Ok (map tbl (seq 0 256))) else None.
Proof.
  intros l tbl sbox fuel n E EN F V Hs. unfold initialize_aes_sbox. destruct (Nat.leb_spec (S n) fuel) as [Hf|Hf].
  - pose proof (writes_more _ (fuel - S n) _ _ _ E) as E'. replace (S n + (fuel - S n)) with fuel in E' by lia.
    rewrite (sbox_loop_writes _ _ _ sbox l Hs E' F). cbn [bind].
    assert (A : aset (fold_left put l sbox) 0 0x63%N = Ok (fold_left put (l ++ [(0, 0x63%N)]) sbox)).
    { rewrite fold_left_app. cbn [fold_left]. apply wp_eq. apply wp_aset; [rewrite length_puts; lia|]. reflexivity. }
    rewrite A. rewrite (puts_all _ _ tbl); auto. apply Forall_app. split; auto. constructor; [cbn [fst]; lia|constructor].
  - assert (EF : writes fuel 1 1 = None).
    { destruct (writes fuel 1 1) as [l'|] eqn:El; auto. apply (writes_more _ (n - fuel)) in El.
      replace (fuel + (n - fuel)) with n in El by lia. congruence. }
    destruct (writes_none fuel 1 1 sbox EF) as [H|H]; [rewrite H; reflexivity|].
    exfalso. exact (sbox_loop_def fuel 1 1 sbox Hs H).
Qed.
Definition sbox_check (l : list (nat * N)) : bool :=
  forallb (fun w => Nat.ltb (fst w) 256) l &&
  forallb (fun k => match last_at k (l ++ [(0, 0x63%N)]) None with
                    | Some v => N.eqb v (nth k aes_SBox 0%N) | None => false end) (seq 0 256).
Lemma sbox_check_ok : forall l, sbox_check l = true -> Forall (fun w => fst w < 256) l /\
  (forall k, k < 256 -> last_at k (l ++ [(0, 0x63%N)]) None = Some (nth k aes_SBox 0%N)).
Proof.
  intros l H. unfold sbox_check in H. apply andb_true_iff in H. destruct H as [F V].
  rewrite forallb_forall in F, V. split.
  - apply Forall_forall. intros w Hw. apply Nat.ltb_lt. exact (F w Hw).
  - intros k Hk. assert (I : In k (seq 0 256)) by (apply in_seq; lia). specialize (V k I). cbv beta in V. revert V.
    generalize (last_at k (l ++ [(0, 0x63%N)]) None). intros [v|]; [|discriminate]. intros V. apply N.eqb_eq in V. subst v. reflexivity.
Qed.
Lemma sbox_writes_ok : writes 254 1 1 = None /\
  exists l, writes 255 1 1 = Some l /\ sbox_check l = true.
Proof.
  split; [vm_compute; reflexivity|].
  assert (H : match writes 255 1 1 with Some l => sbox_check l | None => false end = true) by (vm_compute; reflexivity).
  revert H. generalize (writes 255 1 1). intros [l|] H; [exists l; auto|discriminate].
Qed.
(** C54: the loop ends after exactly 255 iterations and, whatever the array contained, the array
    is then the S-box: inversion in GF(2^8) followed by the affine map *)
Lemma C54_sbox_main : forall sbox fuel, length sbox = 256 ->
  initialize_aes_sbox fuel sbox =
    if Nat.leb 255 fuel then Some (Ok (map (fun i => aes_sbox (N.of_nat i)) (seq 0 256))) else None.
Proof.
  intros sbox fuel Hs. destruct sbox_writes_ok as (EN & l & E & C). apply sbox_check_ok in C. destruct C as [F V].
  rewrite (sbox_init_gen l (fun i => aes_sbox (N.of_nat i)) sbox fuel 254); auto.
  intros k Hk. rewrite V by auto. rewrite <- aes_sbox_nth by lia. rewrite Nat2N.id. reflexivity.
Qed.
Example C54_ex_main : exists s, initialize_aes_sbox 255 (repeat 7%N 256) = Some (Ok s) /\ nth 83 s 0%N = 0xed%N.
Proof. eexists. split; [vm_compute; reflexivity|]. reflexivity. Qed.

(** C55: read as ISO C, the shift gMul(2, 64) << 24 in computeTables is undefined (128 * 2^24 is
    not an int), so computeTables is undefined for every key and every state *)
Lemma for_up_step : forall St body a b (s z : St) i, a <= i < b -> for_up a b body s = Ok z -> exists c c', body i c = Ok c'.
Proof.
  intros St body a b s z i Hi E.
  apply (run_inv St (fun k _ => i < k -> exists c c', body i c = Ok c') body a b s z); auto; try lia.
  intros k t t' Hk IH Eb Hk'. destruct (Nat.eq_dec i k) as [->|]; [eauto|]. apply IH. lia.
Qed.
Lemma C55_strict_main : forall e ek t s, computeTables true e ek t s = UB.
Proof.
  intros e ek t s. unfold computeTables.
  destruct (gen_TyiTables true (tTyiTables t)) as [TT|] eqn:E; [|reflexivity]. exfalso. unfold gen_TyiTables in E.
  apply (for_up_step _ _ _ _ _ _ 0) in E; [|lia]. destruct E as (c & c' & E). cbv beta in E.
  apply (for_up_step _ _ _ _ _ _ 64) in E; [|lia]. destruct E as (d & d' & E). cbv beta zeta in E.
  rewrite !gMul_ok in E by lia. cbn [bind] in E.
  assert (G : gmul 2 (N.of_nat 64) = 128%N) by (vm_compute; reflexivity). rewrite G in E. discriminate E.
Qed.

(** ** What the tables give away *)

(** the inverse of the S-box *)
Definition isbox (y : N) : N :=
  match find (fun i => N.eqb (nth i aes_SBox 0%N) y) (seq 0 256) with Some i => N.of_nat i | None => 0%N end.
Lemma isbox_check : forallb (fun i => N.eqb (isbox (nth i aes_SBox 0%N)) (N.of_nat i)) (seq 0 256) = true.
Proof. vm_compute. reflexivity. Qed.
Lemma isbox_ok : forall x, (x < 256)%N -> isbox (aes_sbox x) = x.
Proof.
  intros x Hx. pose proof isbox_check as H. rewrite forallb_forall in H. specialize (H (N.to_nat x)).
  rewrite in_seq, N2Nat.id in H. rewrite <- aes_sbox_nth by auto. apply N.eqb_eq. apply H. lia.
Qed.
Lemma tb_key : forall e ek t j, tab_for e ek t -> bytes 176 ek -> j < 16 ->
  isbox (at3 0%N (tTBoxes t) 0 j 0) = nth j (ShiftRows (rks ek 0)) 0%N.
Proof.
  intros e ek t j (_ & _ & _ & H & _) He Hj. rewrite H by lia. unfold tb, ent. cbn [Nat.eqb N.of_nat]. rewrite N.lxor_0_l.
  apply isbox_ok. apply sk_bound; auto. lia.
Qed.
Definition unshift (l : list N) : list N := Nat.iter 3 ShiftRows l.
Lemma aes_round_key_0 : forall key, bytes 16 key -> aes_round_key key 0 = key.
Proof.
  intros key [L _]. rewrite aes_round_key_KW. rewrite !KW_0 by lia. unfold key_word.
  do 16 (destruct key as [|? key]; [discriminate L|]). destruct key; [reflexivity|discriminate L].
Qed.
Lemma map_seq_ext : forall (f g : nat -> N) n, (forall k, k < n -> f k = g k) -> map f (seq 0 n) = map g (seq 0 n).
Proof. intros f g n H. apply map_ext_in. intros k Hk. apply in_seq in Hk. apply H. lia. Qed.
Lemma map_nth_seq : forall (l : list N) n, length l = n -> map (fun j => nth j l 0%N) (seq 0 n) = l.
Proof.
  intros l n H. apply list_ext with (d := 0%N); [rewrite map_length, seq_length; auto|].
  rewrite map_length, seq_length. intros j Hj.
  rewrite (nth_indep _ 0%N (nth 0 l 0%N)) by (rewrite map_length, seq_length; lia).
  rewrite (map_nth (fun j => nth j l 0%N)), seq_nth by lia. reflexivity.
Qed.
(** C56: the generated T-boxes, which printTables writes to tables.h, contain the key in the clear:
    there is a function that reads the AES key off the T-boxes of the first round, whatever random
    bijections were drawn *)
Lemma C56_key_in_tables_main : exists extract : list (list N) -> list N,
  forall e key ek ek1 t s, bytes 16 key -> length ek = 176 -> tab_typed t -> expandKey key ek = Ok ek1 ->
    exists ek' t' s', computeTables false e ek1 t s = Ok (ek', t', s') /\ extract (nth 0 (tTBoxes t') []) = key.
Proof.
  exists (fun TB => unshift (map (fun j => isbox (nth 0 (nth j TB []) 0%N)) (seq 0 16))).
  intros e key ek ek1 t s Hk He Ht E1. rewrite expandKey_ok in E1 by auto. injection E1 as <-.
  pose proof (expanded_bytes key Hk) as Be.
  pose proof (computeTables_wp e (expanded key) t s Be Ht) as W.
  destruct (computeTables false e (expanded key) t s) as [[[ek' t'] s']|]; [|contradiction W].
  cbn [wp] in W. destruct W as [_ HT]. exists ek', t', s'. split; [reflexivity|].
  assert (BK : bytes 16 (rks (expanded key) 0)) by (apply rks_bytes; auto; lia).
  rewrite (map_seq_ext _ (fun j => nth j (ShiftRows (rks (expanded key) 0)) 0%N)).
  2:{ intros j Hj. rewrite <- (tb_key e (expanded key) t') by auto. reflexivity. }
  rewrite map_nth_seq by apply length_ShiftRows.
  unfold unshift. change (Nat.iter 4 ShiftRows (rks (expanded key) 0) = key).
  rewrite ShiftRows_4 by auto. unfold rks. rewrite expanded_slice by lia. apply aes_round_key_0. auto.
Qed.
Example C56_ex_main : exists ek1, bytes 16 c1_key /\ expandKey c1_key (repeat 0%N 176) = Ok ek1.
Proof. eexists. split; [split; [reflexivity|repeat constructor]|]. vm_compute. reflexivity. Qed.

(** an S-box with a key byte before and another after it determines both *)
Definition byte_list : list N := map N.of_nat (seq 0 256).
Lemma in_byte_list : forall x, (x < 256)%N <-> In x byte_list.
Proof.
  intros x. unfold byte_list. rewrite in_map_iff. split.
  - intros H. exists (N.to_nat x). rewrite N2Nat.id, in_seq. split; [reflexivity|lia].
  - intros (i & <- & H). apply in_seq in H. lia.
Qed.
Definition guess (t : N -> N) (a : N) : bool :=
  forallb (fun x => N.eqb (N.lxor (aes_sbox (N.lxor x a)) (t x)) (N.lxor (aes_sbox a) (t 0%N))) byte_list.
Definition outer_key (t : N -> N) : N :=
  match find (guess t) byte_list with Some a => N.lxor (aes_sbox a) (t 0%N) | None => 0%N end.
Lemma sbox_diff : forallb (fun d => existsb (fun x => negb (N.eqb
    (N.lxor (nth (N.to_nat (N.lxor (N.of_nat x) (N.of_nat d))) aes_SBox 0%N) (nth x aes_SBox 0%N))
    (N.lxor (nth d aes_SBox 0%N) (nth 0 aes_SBox 0%N)))) (seq 0 256)) (seq 1 255) = true.
Proof. vm_compute. reflexivity. Qed.
Lemma sbox_diff_ok : forall d, (d < 256)%N -> (forall x, (x < 256)%N ->
  N.lxor (aes_sbox (N.lxor x d)) (aes_sbox x) = N.lxor (aes_sbox d) (aes_sbox 0)) -> d = 0%N.
Proof.
  intros d Hd H. destruct (N.eq_dec d 0) as [|Hn]; auto. exfalso. pose proof sbox_diff as S. rewrite forallb_forall in S.
  specialize (S (N.to_nat d) ltac:(apply in_seq; lia)). apply existsb_exists in S. destruct S as (x & Hx & S).
  apply in_seq in Hx. rewrite N2Nat.id in S. assert (Hx' : (N.of_nat x < 256)%N) by lia. specialize (H _ Hx').
  rewrite <- !aes_sbox_nth in H; auto; [|reflexivity|apply xor_byte; auto].
  rewrite Nat2N.id in H. change (N.to_nat 0) with 0 in H. rewrite H, N.eqb_refl in S. discriminate S.
Qed.
Lemma outer_key_ok : forall k c t, (k < 256)%N -> (forall x, (x < 256)%N -> t x = N.lxor (aes_sbox (N.lxor x k)) c) ->
  outer_key t = c.
Proof.
  intros k c t Hk Ht. unfold outer_key. destruct (find (guess t) byte_list) as [a|] eqn:E.
  - apply find_some in E. destruct E as [Ha G]. apply in_byte_list in Ha. unfold guess in G. rewrite forallb_forall in G.
    assert (G' : forall x, (x < 256)%N -> N.lxor (aes_sbox (N.lxor x a)) (aes_sbox (N.lxor x k)) = N.lxor (aes_sbox a) (aes_sbox k)).
    { intros x Hx. specialize (G x (proj1 (in_byte_list x) Hx)). apply N.eqb_eq in G. rewrite !Ht in G by (auto; lia).
      rewrite N.lxor_0_l in G. rewrite <- !N.lxor_assoc in G. apply (f_equal (fun y => N.lxor y c)) in G.
      rewrite !N.lxor_assoc, !N.lxor_nilpotent, !N.lxor_0_r in G. exact G. }
    assert (Z : N.lxor a k = 0%N).
    { apply sbox_diff_ok; [apply xor_byte; auto|]. intros y Hy.
      pose proof (G' (N.lxor y k) ltac:(apply xor_byte; auto)) as G1. pose proof (G' k Hk) as G2.
      rewrite (N.lxor_assoc y k k), N.lxor_nilpotent, N.lxor_0_r in G1. rewrite N.lxor_nilpotent in G2.
      rewrite (N.lxor_assoc y k a), (N.lxor_comm k a) in G1. rewrite (N.lxor_comm k a) in G2. congruence. }
    apply N.lxor_eq in Z. subst a. rewrite Ht by lia. rewrite N.lxor_0_l, <- N.lxor_assoc, N.lxor_nilpotent, N.lxor_0_l. reflexivity.
  - exfalso. pose proof (find_none _ _ E k (proj1 (in_byte_list k) Hk)) as G. enough (guess t k = true) by congruence.
    unfold guess. apply forallb_forall. intros x Hx. apply in_byte_list in Hx. apply N.eqb_eq. rewrite !Ht by (auto; lia).
    rewrite N.lxor_0_l, <- !N.lxor_assoc, !N.lxor_nilpotent. reflexivity.
Qed.
(** the key schedule backwards *)
Definition sched (i : nat) (t : list N) : list N :=
  if Nat.eqb (i mod 4) 0 then xor_list (SubWord (RotWord t)) [rcon (i / 4 - 1); 0; 0; 0]%N else t.
Fixpoint back (n : nat) (w : list (list N)) : list (list N) :=
  match n with
  | O => w
  | S n' => back n' (xor_list (nth 3 w []) (sched (n + 3) (nth 2 w [])) :: firstn 3 w)
  end.
Lemma xor_list_cancel : forall a b : list N, length a = 4 -> length b = 4 -> xor_list (xor_list a b) b = a.
Proof.
  intros a b Ha Hb. do 4 (destruct a as [|? a]; [discriminate Ha|]). destruct a; [|discriminate Ha].
  do 4 (destruct b as [|? b]; [discriminate Hb|]). destruct b; [|discriminate Hb].
  unfold xor_list. cbn. rewrite !N.lxor_assoc, !N.lxor_nilpotent, !N.lxor_0_r. reflexivity.
Qed.
Lemma sched_length : forall i t, length t = 4 -> length (sched i t) = 4.
Proof.
  intros i t Ht. unfold sched. generalize (rcon (i / 4 - 1)). intros r.
  do 4 (destruct t as [|? t]; [discriminate Ht|]). destruct t; [|discriminate Ht]. destruct (Nat.eqb (i mod 4) 0); reflexivity.
Qed.
Lemma back_S : forall n a b c d, back (S n) [a; b; c; d] = back n [xor_list d (sched (S n + 3) c); a; b; c].
Proof. reflexivity. Qed.
Lemma KW_sched : forall key i, 4 <= i -> i < 44 -> KW key i = xor_list (KW key (i - 4)) (sched i (KW key (i - 1))).
Proof. intros key i H4 H44. rewrite KW_S by auto. cbv zeta. unfold sched. reflexivity. Qed.
Lemma back_ok : forall key n, n <= 40 ->
  back n [KW key n; KW key (n + 1); KW key (n + 2); KW key (n + 3)] = [KW key 0; KW key 1; KW key 2; KW key 3].
Proof.
  intros key. induction n as [|n IH]; intros Hn; [reflexivity|].
  specialize (IH ltac:(lia)). rewrite <- IH. clear IH. rewrite back_S. replace (S n + 3) with (n + 1 + 3) by lia. replace (S n + 2) with (n + 3) by lia. replace (S n + 1) with (n + 2) by lia. replace (S n) with (n + 1) by lia.
  enough (E : xor_list (KW key (n + 1 + 3)) (sched (n + 1 + 3) (KW key (n + 3))) = KW key n) by (rewrite E; reflexivity).
  rewrite (KW_sched key (n + 1 + 3)) by lia.
  replace (n + 1 + 3 - 4) with n by lia. replace (n + 1 + 3 - 1) with (n + 3) by lia.
  apply xor_list_cancel; [apply KW_length; lia|]. apply sched_length. apply KW_length. lia.
Qed.
Definition unschedule (rk : list N) : list N := concat (back 40 (map (fun q => slice rk (4 * q) 4) (seq 0 4))).
Lemma unschedule_ok : forall key, bytes 16 key -> unschedule (aes_round_key key 10) = key.
Proof.
  intros key Hk. unfold unschedule.
  assert (E : map (fun q => slice (aes_round_key key 10) (4 * q) 4) (seq 0 4) = [KW key 40; KW key (40 + 1); KW key (40 + 2); KW key (40 + 3)]).
  { rewrite aes_round_key_KW. cbn [Nat.mul Nat.add].
    pose proof (KW_length key 40 ltac:(lia)) as L0. pose proof (KW_length key 41 ltac:(lia)) as L1.
    pose proof (KW_length key 42 ltac:(lia)) as L2. pose proof (KW_length key 43 ltac:(lia)) as L3.
    revert L0 L1 L2 L3. generalize (KW key 40) (KW key 41) (KW key 42) (KW key 43). intros a b c d La Lb Lc Ld.
    rewrite (list4 a La), (list4 b Lb), (list4 c Lc), (list4 d Ld). reflexivity. }
  rewrite E, back_ok by lia. rewrite <- (aes_round_key_0 key Hk) at 5. rewrite aes_round_key_KW. reflexivity.
Qed.
(** The T-boxes of the last round, which wbaes_encrypt cannot do without, suffice: they determine
    the last round key, hence the key *)
Lemma C56_last_round_main : exists extract : list (list N) -> list N,
  forall e key ek ek1 t s, bytes 16 key -> length ek = 176 -> tab_typed t -> expandKey key ek = Ok ek1 ->
    exists ek' t' s', computeTables false e ek1 t s = Ok (ek', t', s') /\ extract (nth 9 (tTBoxes t') []) = key.
Proof.
  exists (fun TB => unschedule (map (fun j => outer_key (fun x => nth (N.to_nat x) (nth j TB []) 0%N)) (seq 0 16))).
  intros e key ek ek1 t s Hk He Ht E1. rewrite expandKey_ok in E1 by auto. injection E1 as <-.
  pose proof (expanded_bytes key Hk) as Be.
  pose proof (computeTables_wp e (expanded key) t s Be Ht) as W.
  destruct (computeTables false e (expanded key) t s) as [[[ek' t'] s']|]; [|contradiction W].
  cbn [wp] in W. destruct W as [_ HT]. exists ek', t', s'. split; [reflexivity|].
  assert (BK : bytes 16 (rks (expanded key) 10)) by (apply rks_bytes; auto; lia).
  rewrite (map_seq_ext _ (fun j => nth j (rks (expanded key) 10) 0%N)).
  - rewrite map_nth_seq by apply BK. unfold rks. rewrite expanded_slice by lia. apply unschedule_ok. auto.
  - intros j Hj. apply (outer_key_ok (sk (expanded key) 9 j)); [apply sk_bound; auto; lia|]. intros x Hx.
    destruct HT as (_ & _ & _ & H & _). specialize (H 9 j (N.to_nat x) ltac:(lia) Hj ltac:(lia)).
    unfold at3, tb, ent in H. rewrite N2Nat.id in H. exact H.
Qed.

(** C57: mixColumns, and mixColumns_table with the generated tables TyiTables, compute MixColumns *)
Lemma mixColumns_table_ok : forall T s, tyi_ok T -> bytes 16 s -> mixColumns_table T s = Ok (MixColumns s).
Proof.
  intros T s [DT HT] Hs. unfold mixColumns_table. pose proof (proj1 Hs) as L.
  rewrite (columns_ok (fun r c => xor4 (gmul 2 (elt s r c)) (gmul 3 (elt s ((r + 1) mod 4) c))
                         (elt s ((r + 2) mod 4) c) (elt s ((r + 3) mod 4) c))); auto.
  - cbn [bind]. apply wp_eq. eapply wp_mono; [apply put16_wp; [apply length_state|lia]|].
    intros s' W. apply written_all in W; auto.
  - intros j o Hj Ho. rewrite !(aget_ok _ s _ 0%N) by lia. cbn [bind].
    assert (B : forall k, (nth k s 0 < 256)%N) by (intros; apply nth_byte; apply Hs).
    assert (G : forall q k, q < 4 -> get2 T q (N.to_nat (nth k s 0%N)) = Ok (tyi q (nth k s 0%N))).
    { intros q k Hq. apply wp_eq. specialize (B k). apply wp_get2 with (d := 0%N) (n := 4) (m := 256); auto; [lia|].
      rewrite HT by lia. rewrite N2Nat.id. reflexivity. }
    rewrite !G by lia. cbn [bind].
    pose proof (wbyte_tyi _ _ _ _ (B (4 * j)) (B (4 * j + 1)) (B (4 * j + 2)) (B (4 * j + 3))) as WV. cbv zeta in *.
    set (V := N.lxor _ _) in *. clearbody V. destruct WV as (V0 & V1 & V2 & V3).
    do 3 (apply wp_bind; apply wp_aset; [rewrite ?length_upd; lia|]). apply wp_aset; [rewrite ?length_upd; lia|].
    pose proof (uchar_byte V 3) as U3. pose proof (uchar_byte V 2) as U2. pose proof (uchar_byte V 1) as U1. pose proof (uchar_byte V 0) as U0.
    change (8 * 3)%N with 24%N in U3. change (8 * 2)%N with 16%N in U2. change (8 * 1)%N with 8%N in U1. change (8 * 0)%N with 0%N in U0.
    rewrite N.shiftr_0_r in U0. rewrite U3, U2, U1, U0.
    apply (column_write (fun r c => xor4 (gmul 2 (elt s r c)) (gmul 3 (elt s ((r + 1) mod 4) c))
             (elt s ((r + 2) mod 4) c) (elt s ((r + 3) mod 4) c))); auto; unfold elt;
      rewrite !(Nat.add_comm _ (4 * j)); rewrite ?Nat.add_0_r; [exact V0|exact V1|exact V2|exact V3].
Qed.
Lemma C57_mixColumns_main : forall e ek t s, bytes 176 ek -> tab_typed t ->
  exists ek' t' s', computeTables false e ek t s = Ok (ek', t', s') /\
  forall x, bytes 16 x -> mixColumns x = Ok (MixColumns x) /\ mixColumns_table (tTyiTables t') x = Ok (MixColumns x).
Proof.
  intros e ek t s He Ht. pose proof (computeTables_wp e ek t s He Ht) as W.
  destruct (computeTables false e ek t s) as [[[ek' t'] s']|]; [|contradiction W].
  cbn [wp] in W. destruct W as [_ HT]. exists ek', t', s'. split; [reflexivity|].
  intros x Hx. split; [apply mixColumns_ok; auto|]. apply mixColumns_table_ok; auto. apply HT.
Qed.
Example C57_ex_main : mixColumns c1_pt = Ok (MixColumns c1_pt) /\ MixColumns c1_pt <> c1_pt /\ bytes 176 (repeat 0%N 176).
Proof.
  split; [vm_compute; reflexivity|]. split; [vm_compute; discriminate|]. split; [reflexivity|]. repeat constructor.
Qed.
