(** Final form of the properties C41 and C47 to C51.  tools/gen_props.py copies the statements
    (names without the suffix _main) to Properties7.v. *)
From Coq Require Import Arith NArith ZArith List Bool Lia.
From Verif Require Import Base Tables Model Spec LinAlg Mem Cons Check ModelSM4 SpecSM4 SM4 WBSM4.
Import ListNotations.
Opaque sm4_block.

Definition aff0 (w : width) : aff := mkaff (zeros w) (repeat 0%N (nw w)).
Definition glob0 : wbglob :=
  mkglob (repeat (repeat (aff0 W32) 2) 36) (repeat (repeat (repeat (aff0 W8) 2) 4) 36)
    (repeat (repeat (aff0 W32) 2) 36) (repeat (repeat (aff0 W32) 2) 36)
    (repeat (repeat (repeat 0%N 256) 4) 32).
Definition ctx0 : wbctx :=
  mkctx (repeat (repeat (aff0 W32) 3) 32) (repeat (aff0 W32) 32) (repeat (aff0 W32) 32)
    (repeat (aff0 W32) 4) (repeat (aff0 W32) 4) (repeat (repeat (repeat 0%N 256) 4) 32).

(** C41: whatever the global arrays and the context contain before (the examples call the
    generator many times on the same ones), table generation is defined, and encryption with
    the tables is SM4 with the key; u is the size of unsigned long, s the state of the random
    generator and the clock, OUT the previous content of the output buffer. *)
Lemma C41_wbsm4_main : forall u key g c s, bytes 16 key -> glob_typed g -> dims3 32 4 256 (gS g) -> ctx_typed c ->
  exists g' c' s', sm4_wb_gen_tables LE u key g c s = Ok (g', c', s') /\
    glob_typed g' /\ dims3 32 4 256 (gS g') /\ ctx_typed c' /\
    forall IN OUT, bytes 16 IN -> length OUT = 16 -> sm4_wb_enc LE IN OUT c' = Ok (SM4_encrypt key IN).
Proof. exact wb_correct. Qed.

Lemma nth_rep : forall A (x d : A) n i, i < n -> nth i (repeat x n) d = x.
Proof. intros A x d n. induction n as [|n IH]; intros [|i] H; try lia; auto. apply IH. lia. Qed.
Lemma aff0_typed : forall w, nw w = 1 -> typedA w (aff0 w).
Proof. intros [] H; try discriminate H; (split; [apply mat_ofb_ok|apply vec_ofb_ok]; reflexivity). Qed.
Lemma dims2_rep : forall A (x : A) n m, dims2 n m (repeat (repeat x m) n).
Proof. intros. split; [apply repeat_length|]. intros. rewrite nth_rep by auto. apply repeat_length. Qed.
Lemma dims3_rep : forall A (x : A) n m l, dims3 n m l (repeat (repeat (repeat x l) m) n).
Proof. intros. split; [apply repeat_length|]. intros. rewrite nth_rep by auto. apply dims2_rep. Qed.
Lemma arr2_rep : forall w n m, nw w = 1 -> arr2 w n m (repeat (repeat (aff0 w) m) n).
Proof. intros. split; [apply dims2_rep|]. intros. unfold at2. rewrite !nth_rep by auto. apply aff0_typed; auto. Qed.
Lemma arr3_rep : forall w n m l, nw w = 1 -> arr3 w n m l (repeat (repeat (repeat (aff0 w) l) m) n).
Proof.
  intros. split; [apply dims3_rep|]. intros. unfold at3, at2. rewrite !nth_rep by auto. apply aff0_typed; auto.
Qed.
Lemma arr1_rep : forall w n, nw w = 1 -> arr1 w n (repeat (aff0 w) n).
Proof. intros. split; [apply repeat_length|]. intros. rewrite !nth_rep by auto. apply aff0_typed; auto. Qed.

Example C41_ex_main : bytes 16 (repeat 0%N 16) /\ glob_typed glob0 /\ dims3 32 4 256 (gS glob0) /\ ctx_typed ctx0.
Proof.
  split; [split; [reflexivity|repeat constructor]|].
  split; [refine (conj _ (conj _ (conj _ _))); (apply arr2_rep || apply arr3_rep); reflexivity|].
  split; [apply dims3_rep|].
  refine (conj _ (conj _ (conj _ (conj _ (conj _ _))))); try apply dims3_rep; (apply arr2_rep || apply arr1_rep); reflexivity.
Qed.

(** the key and plaintext of the example in the standard *)
Definition ex_key : list N :=
  [0x01; 0x23; 0x45; 0x67; 0x89; 0xab; 0xcd; 0xef; 0xfe; 0xdc; 0xba; 0x98; 0x76; 0x54; 0x32; 0x10]%N.
Definition ex_ct : list N :=
  [0x68; 0x1e; 0xdf; 0x34; 0xd2; 0x06; 0x96; 0x5e; 0x86; 0xb3; 0xe9; 0x4f; 0x53; 0x6e; 0x42; 0x46]%N.
Lemma bytes_b : forall n l, (Nat.eqb (length l) n && forallb (fun x => N.ltb x 256) l)%bool = true -> bytes n l.
Proof.
  intros n l H. apply andb_true_iff in H. destruct H as [H1 H2]. split; [apply Nat.eqb_eq; auto|].
  apply Forall_forall. intros x Hx. rewrite forallb_forall in H2. apply N.ltb_lt. auto.
Qed.

(** C47: sm4_setkey_enc and sm4_one_round compute SM4, for both sizes of unsigned long; nothing
    but the 16 bytes at the output position changes. *)
Lemma C47_sm4_block_main : forall u SK key, bytes 16 key -> length SK = 32 ->
  exists sk, sm4_setkey_enc u SK key = Ok sk /\
    forall pre b post opre ob opost, bytes 16 b -> length ob = 16 ->
      Forall (fun x => (x < 256)%N) (pre ++ post) ->
      sm4_one_round u sk (pre ++ b ++ post) (length pre) (opre ++ ob ++ opost) (length opre)
      = Ok (opre ++ SM4_encrypt key b ++ opost).
Proof.
  intros u SK key HK HS. destruct (wp_ok_inv _ _ _ (sm4_setkey_wp u SK key HK HS)) as (sk & E & Hl & Hk).
  exists sk. split; auto. intros pre b post opre ob opost Hb Ho HF.
  pose proof (sm4_one_round_wp u sk (round_key key) (pre ++ b ++ post) (length pre) (opre ++ ob ++ opost) (length opre)
    Hl Hk) as W.
  assert (F : Forall (fun x => (x < 256)%N) (pre ++ b ++ post)).
  { rewrite !Forall_app in *. destruct HF. repeat split; auto. apply Hb. }
  destruct (wp_ok_inv _ _ _ (W F ltac:(rewrite !app_length, (proj1 Hb); lia) ltac:(rewrite !app_length; lia)))
    as (o & Eo & Wo).
  rewrite Eo. f_equal. rewrite slice_app in Wo by (auto; apply Hb).
  rewrite app_assoc. eapply written_mid; [reflexivity|exact Ho|apply sm4_block_bytes|exact Wo].
Qed.
Lemma setkey_ex_run : exists sk, sm4_setkey_enc UL64 (repeat 0%N 32) ex_key = Ok sk /\
  sm4_one_round UL64 sk ex_key 0 (repeat 0%N 16) 0 = Ok ex_ct.
Proof. eexists. split; [vm_compute; reflexivity|]. vm_compute. reflexivity. Qed.
Lemma block_alone : forall u SK key b ob sk, bytes 16 key -> length SK = 32 -> bytes 16 b -> length ob = 16 ->
  sm4_setkey_enc u SK key = Ok sk -> sm4_one_round u sk b 0 ob 0 = Ok (SM4_encrypt key b).
Proof.
  intros u SK key b ob sk HK HS Hb Ho E. destruct (C47_sm4_block_main u SK key HK HS) as (sk' & E' & H).
  rewrite E in E'. injection E' as <-. pose proof (H [] b [] [] ob [] Hb Ho ltac:(constructor)) as R.
  rewrite !app_nil_l, !app_nil_r in R. exact R.
Qed.
(** the example of the standard: the specification is SM4 *)
Example C47_ex_main : bytes 16 ex_key /\ SM4_encrypt ex_key ex_key = ex_ct.
Proof.
  assert (HK : bytes 16 ex_key) by (apply bytes_b; reflexivity). split; [exact HK|].
  destruct setkey_ex_run as (sk & E & H).
  pose proof (block_alone UL64 (repeat 0%N 32) ex_key ex_key (repeat 0%N 16) sk HK (repeat_length _ _) HK (repeat_length _ _) E) as R.
  rewrite H in R. symmetry. congruence.
Qed.

(** C48: decryption inverts encryption and encryption inverts decryption *)
Lemma C48_sm4_inverse_main : forall u SK SK' key, bytes 16 key -> length SK = 32 -> length SK' = 32 ->
  exists sk dk, sm4_setkey_enc u SK key = Ok sk /\ sm4_setkey_dec u SK' key = Ok dk /\
    (forall x y z, bytes 16 x -> length y = 16 -> length z = 16 ->
       exists c, sm4_one_round u sk x 0 y 0 = Ok c /\ sm4_one_round u dk c 0 z 0 = Ok x) /\
    (forall x y z, bytes 16 x -> length y = 16 -> length z = 16 ->
       exists c, sm4_one_round u dk x 0 y 0 = Ok c /\ sm4_one_round u sk c 0 z 0 = Ok x).
Proof.
  intros u SK SK' key HK HS HS'.
  destruct (wp_ok_inv _ _ _ (sm4_setkey_wp u SK key HK HS)) as (sk & E & K1).
  destruct (wp_ok_inv _ _ _ (sm4_setkey_dec_wp u SK' key HK HS')) as (dk & E' & K2).
  exists sk, dk. split; auto. split; auto.
  assert (R : forall k rk x y, keys_ok k rk -> bytes 16 x -> length y = 16 -> sm4_one_round u k x 0 y 0 = Ok (sm4_block rk x)).
  { intros k rk x y Kk Hx Hy.
    pose proof (sm4_one_round_wp u k rk x 0 y 0 (proj1 Kk) (proj2 Kk) (proj2 Hx)) as W.
    destruct (wp_ok_inv _ _ _ (W ltac:(rewrite (proj1 Hx); lia) ltac:(lia))) as (o & Eo & Wo).
    rewrite Eo. f_equal. 
    assert (Hs : slice x 0 16 = x).
    { pose proof (slice_app [] x [] 0 16 eq_refl (proj1 Hx)) as Hs. rewrite app_nil_l, app_nil_r in Hs. exact Hs. }
    rewrite Hs in Wo.
    apply (written_app [] y o 0) in Wo; auto; rewrite (proj1 (sm4_block_bytes rk x)) in *; [|lia].
    rewrite Wo, app_nil_l. rewrite skipn_all2 by lia. apply app_nil_r. }
  split; intros x y z Hx Hy Hz.
  - exists (sm4_block (round_key key) x). split; [apply R; auto|].
    rewrite (R dk (fun i => round_key key (31 - i))); auto; [|apply sm4_block_bytes]. f_equal. apply block_inverse; auto.
  - exists (sm4_block (fun i => round_key key (31 - i)) x). split; [apply R; auto|].
    rewrite (R sk (round_key key)); auto; [|apply sm4_block_bytes]. f_equal. apply block_inverse'; auto.
Qed.
Example C48_ex_main : exists dk, sm4_setkey_dec UL32 (repeat 0%N 32) ex_key = Ok dk /\
  sm4_one_round UL32 dk ex_ct 0 (repeat 0%N 16) 0 = Ok ex_key.
Proof. eexists. split; [vm_compute; reflexivity|]. vm_compute. reflexivity. Qed.

(** C49: the modes ECB and CBC on any number of blocks.  [post] and [rest] are the bytes of the
    two buffers after the blocks; the second component of CBC's result is the buffer, the first
    the new content of iv. *)
Lemma C49_ecb_main : forall u SK key, bytes 16 key -> length SK = 32 ->
  exists sk, sm4_setkey_enc u SK key = Ok sk /\
    forall bs post out rest, Forall (bytes 16) bs -> Forall (fun x => (x < 256)%N) post -> length out = 16 * length bs ->
      sm4_crypt_ecb u sk (16 * Z.of_nat (length bs)) (concat bs ++ post) (out ++ rest)
      = Ok (concat (map (SM4_encrypt key) bs) ++ rest).
Proof.
  intros u SK key HK HS. destruct (wp_ok_inv _ _ _ (sm4_setkey_wp u SK key HK HS)) as (sk & E & K).
  exists sk. split; auto. intros bs post out rest HB HP HO. unfold sm4_crypt_ecb.
  pose proof (ecb_loop_ok u sk (round_key key) K bs (Z.to_nat (16 * Z.of_nat (length bs))) [] post [] (out ++ rest) 0) as R.
  rewrite ?app_nil_l in R. rewrite R; auto; try lia.
  - rewrite skipn_app, HO, Nat.sub_diag, skipn_all2 by lia.
    unfold SM4_encrypt, SM4_decrypt. cbn [skipn]. rewrite app_nil_l. reflexivity.
  - apply Forall_app. split; auto. apply blocks_bytes; auto.
  - rewrite app_length. lia.
Qed.
Lemma C49_cbc_enc_main : forall u SK key, bytes 16 key -> length SK = 32 ->
  exists sk, sm4_setkey_enc u SK key = Ok sk /\
    forall iv bs post out rest, bytes 16 iv -> Forall (bytes 16) bs -> Forall (fun x => (x < 256)%N) (post ++ out ++ rest) ->
      length out = 16 * length bs ->
      sm4_crypt_cbc u sk true (16 * Z.of_nat (length bs)) iv (concat bs ++ post) (out ++ rest)
      = Ok (last (CBC_encrypt (SM4_encrypt key) iv bs) iv, concat (CBC_encrypt (SM4_encrypt key) iv bs) ++ rest).
Proof.
  intros u SK key HK HS. destruct (wp_ok_inv _ _ _ (sm4_setkey_wp u SK key HK HS)) as (sk & E & K).
  exists sk. split; auto. intros iv bs post out rest HI HB HP HO. unfold sm4_crypt_cbc.
  rewrite !Forall_app in HP. destruct HP as (P1 & P2 & P3).
  pose proof (cbc_enc_ok u sk (round_key key) K bs (Z.to_nat (16 * Z.of_nat (length bs))) iv [] post [] (out ++ rest) 0) as R.
  rewrite ?app_nil_l in R. rewrite R; auto; try lia.
  - rewrite skipn_app, HO, Nat.sub_diag, skipn_all2 by lia.
    unfold SM4_encrypt, SM4_decrypt. cbn [skipn]. rewrite app_nil_l. reflexivity.
  - apply Forall_app. split; auto. apply blocks_bytes; auto.
  - apply Forall_app. split; auto.
  - rewrite app_length. lia.
Qed.
Lemma C49_cbc_dec_main : forall u SK key, bytes 16 key -> length SK = 32 ->
  exists dk, sm4_setkey_dec u SK key = Ok dk /\
    forall iv bs post out rest, bytes 16 iv -> Forall (bytes 16) bs -> Forall (fun x => (x < 256)%N) post ->
      length out = 16 * length bs ->
      sm4_crypt_cbc u dk false (16 * Z.of_nat (length bs)) iv (concat bs ++ post) (out ++ rest)
      = Ok (last bs iv, concat (CBC_decrypt (SM4_decrypt key) iv bs) ++ rest).
Proof.
  intros u SK key HK HS. destruct (wp_ok_inv _ _ _ (sm4_setkey_dec_wp u SK key HK HS)) as (sk & E & K).
  exists sk. split; auto. intros iv bs post out rest HI HB HP HO. unfold sm4_crypt_cbc.
  pose proof (cbc_dec_ok u sk (fun i => round_key key (31 - i)) K bs (Z.to_nat (16 * Z.of_nat (length bs))) iv [] post [] (out ++ rest) 0) as R.
  rewrite ?app_nil_l in R. rewrite R; auto; try lia.
  - rewrite skipn_app, HO, Nat.sub_diag, skipn_all2 by lia.
    unfold SM4_encrypt, SM4_decrypt. cbn [skipn]. rewrite app_nil_l. reflexivity.
  - apply Forall_app. split; auto. apply blocks_bytes; auto.
  - rewrite app_length. lia.
Qed.
(** encrypting a message in CBC mode and decrypting the result with the same iv gives the message *)
Lemma C49_cbc_roundtrip_main : forall u SK SK' key, bytes 16 key -> length SK = 32 -> length SK' = 32 ->
  exists sk dk, sm4_setkey_enc u SK key = Ok sk /\ sm4_setkey_dec u SK' key = Ok dk /\
    forall iv bs out out', bytes 16 iv -> Forall (bytes 16) bs ->
      bytes (16 * length bs) out -> length out' = 16 * length bs ->
      exists iv1 ct iv2, sm4_crypt_cbc u sk true (16 * Z.of_nat (length bs)) iv (concat bs) out = Ok (iv1, ct) /\
        sm4_crypt_cbc u dk false (16 * Z.of_nat (length bs)) iv ct out' = Ok (iv2, concat bs).
Proof.
  intros u SK SK' key HK HS HS'.
  destruct (C49_cbc_enc_main u SK key HK HS) as (sk & E & R1). destruct (C49_cbc_dec_main u SK' key HK HS') as (dk & E' & R2).
  exists sk, dk. split; auto. split; auto. intros iv bs out out' HI HB [LO FO] LO'.
  pose proof (R1 iv bs [] out [] HI HB) as A. rewrite ?app_nil_l in A. rewrite !app_nil_r in A. specialize (A FO LO).
  destruct (CBC_blocks (round_key key) bs iv) as [B1 B2].
  pose proof (R2 iv (CBC_encrypt (SM4_encrypt key) iv bs) [] out' [] HI B1 ltac:(constructor)) as B.
  change (SM4_encrypt key) with (sm4_block (round_key key)) in *. rewrite B2 in B. rewrite !app_nil_r in B. specialize (B LO').
  do 3 eexists. split; [exact A|]. rewrite B. f_equal. f_equal. f_equal. apply CBC_inverse; auto.
Qed.
Lemma CBC_app : forall E bs bs' iv, CBC_encrypt E iv (bs ++ bs')
  = CBC_encrypt E iv bs ++ CBC_encrypt E (last (CBC_encrypt E iv bs) iv) bs'.
Proof.
  intros E. induction bs as [|b r IH]; intros bs' iv; [reflexivity|].
  cbn [app CBC_encrypt]. rewrite IH, last_cons. reflexivity.
Qed.
Lemma last_bytes : forall l d, blocks l -> bytes 16 d -> bytes 16 (last l d).
Proof.
  induction l as [|x l IH]; intros d H Hd; [exact Hd|]. rewrite last_cons.
  inversion H as [|? ? Hx Hl]; subst. apply IH; [exact Hl|exact Hx].
Qed.
Lemma last_app_last : forall A (l l' : list A) d, last (l ++ l') d = last l' (last l d).
Proof.
  intros A. induction l as [|x l IH]; intros l' d; [reflexivity|].
  change ((x :: l) ++ l') with (x :: l ++ l'). rewrite !last_cons. apply IH.
Qed.
(** a message may be encrypted in pieces: iv after the first call continues the chain *)
Lemma C49_cbc_pieces_main : forall u SK key, bytes 16 key -> length SK = 32 ->
  exists sk, sm4_setkey_enc u SK key = Ok sk /\
    forall iv bs bs' out out', bytes 16 iv -> Forall (bytes 16) (bs ++ bs') ->
      bytes (16 * length bs) out -> bytes (16 * length bs') out' ->
      exists iv1 c1 iv2 c2,
        sm4_crypt_cbc u sk true (16 * Z.of_nat (length bs)) iv (concat bs) out = Ok (iv1, c1) /\
        sm4_crypt_cbc u sk true (16 * Z.of_nat (length bs')) iv1 (concat bs') out' = Ok (iv2, c2) /\
        sm4_crypt_cbc u sk true (16 * Z.of_nat (length (bs ++ bs'))) iv (concat (bs ++ bs')) (out ++ out') = Ok (iv2, c1 ++ c2).
Proof.
  intros u SK key HK HS. destruct (C49_cbc_enc_main u SK key HK HS) as (sk & E & R1). exists sk. split; auto.
  intros iv bs bs' out out' HI HB [LO FO] [LO' FO']. pose proof HB as HB'. apply Forall_app in HB' as [HB1 HB2].
  pose proof (R1 iv bs [] out [] HI HB1) as A. rewrite ?app_nil_l in A. rewrite !app_nil_r in A. specialize (A FO LO).
  pose proof (CBC_blocks (round_key key) bs iv) as [C1 C2]. fold (SM4_encrypt key) in C1, C2.
  assert (HI1 : bytes 16 (last (CBC_encrypt (SM4_encrypt key) iv bs) iv)).
  { apply last_bytes; auto. }
  pose proof (R1 _ bs' [] out' [] HI1 HB2) as B. rewrite ?app_nil_l in B. rewrite !app_nil_r in B. specialize (B FO' LO').
  assert (LA : length (out ++ out') = 16 * length (bs ++ bs')) by (rewrite !app_length; lia).
  pose proof (R1 iv (bs ++ bs') [] (out ++ out') [] HI HB) as D. rewrite ?app_nil_l in D. rewrite !app_nil_r in D.
  specialize (D ltac:(apply Forall_app; auto) LA).
  do 4 eexists. split; [exact A|]. split; [exact B|]. rewrite D, CBC_app, concat_app, last_app_last. reflexivity.
Qed.
Example C49_ex_main : exists sk, sm4_setkey_enc UL64 (repeat 0%N 32) ex_key = Ok sk /\
  sm4_crypt_cbc UL64 sk true 32 (repeat 0%N 16) (ex_key ++ ex_ct) (repeat 7%N 32) = Ok (
    [38; 119; 244; 107; 9; 193; 34; 204; 151; 85; 51; 16; 91; 212; 162; 42]%N, ex_ct ++
    [38; 119; 244; 107; 9; 193; 34; 204; 151; 85; 51; 16; 91; 212; 162; 42]%N).
Proof. eexists. split; [vm_compute; reflexivity|]. vm_compute. reflexivity. Qed.

(** C50: input and output may be the same buffer *)
Lemma C50_in_place_main : forall u SK SK' key, bytes 16 key -> length SK = 32 -> length SK' = 32 ->
  exists sk dk, sm4_setkey_enc u SK key = Ok sk /\ sm4_setkey_dec u SK' key = Ok dk /\
    forall iv bs post, bytes 16 iv -> Forall (bytes 16) bs -> Forall (fun x => (x < 256)%N) post ->
      sm4_crypt_ecb_ip u sk (16 * Z.of_nat (length bs)) (concat bs ++ post)
        = Ok (concat (map (SM4_encrypt key) bs) ++ post) /\
      sm4_crypt_ecb_ip u dk (16 * Z.of_nat (length bs)) (concat bs ++ post)
        = Ok (concat (map (SM4_decrypt key) bs) ++ post) /\
      sm4_crypt_cbc_ip u sk true (16 * Z.of_nat (length bs)) iv (concat bs ++ post)
        = Ok (last (CBC_encrypt (SM4_encrypt key) iv bs) iv, concat (CBC_encrypt (SM4_encrypt key) iv bs) ++ post) /\
      sm4_crypt_cbc_ip u dk false (16 * Z.of_nat (length bs)) iv (concat bs ++ post)
        = Ok (last bs iv, concat (CBC_decrypt (SM4_decrypt key) iv bs) ++ post).
Proof.
  intros u SK SK' key HK HS HS'.
  destruct (wp_ok_inv _ _ _ (sm4_setkey_wp u SK key HK HS)) as (sk & E & K1).
  destruct (wp_ok_inv _ _ _ (sm4_setkey_dec_wp u SK' key HK HS')) as (dk & E' & K2).
  exists sk, dk. split; auto. split; auto. intros iv bs post HI HB HP.
  assert (F : Forall (fun x => (x < 256)%N) ([] ++ concat bs ++ post)).
  { cbn [app]. apply Forall_app. split; auto. apply blocks_bytes; auto. }
  set (n := Z.to_nat (16 * Z.of_nat (length bs))). assert (Hn : length bs <= n) by (unfold n; lia).
  repeat split.
  - exact (ecb_loop_ip_ok u sk _ K1 bs n [] post 0 HB F Hn eq_refl).
  - exact (ecb_loop_ip_ok u dk _ K2 bs n [] post 0 HB F Hn eq_refl).
  - exact (cbc_enc_ip_ok u sk _ K1 bs n iv [] post 0 HB HI F Hn eq_refl).
  - exact (cbc_dec_ip_ok u dk _ K2 bs n iv [] post 0 HB HI F Hn eq_refl).
Qed.
Example C50_ex_main : exists sk, sm4_setkey_enc UL32 (repeat 0%N 32) ex_key = Ok sk /\
  sm4_crypt_ecb_ip UL32 sk 16 (ex_key ++ [1; 2]%N) = Ok (ex_ct ++ [1; 2]%N).
Proof. eexists. split; [vm_compute; reflexivity|]. vm_compute. reflexivity. Qed.

(** C51: a length that is not a multiple of 16 makes the functions access memory beyond the end
    of a buffer of that length, whatever the keys and contents *)
Lemma C51_length_main : forall u sk L input output iv, (0 < L)%Z -> (L mod 16 <> 0)%Z ->
  (Z.of_nat (length input) = L \/ Z.of_nat (length output) = L) ->
  sm4_crypt_ecb u sk L input output = UB /\
  sm4_crypt_cbc u sk true L iv input output = UB /\
  sm4_crypt_cbc u sk false L iv input output = UB.
Proof.
  intros u sk L input output iv HL HM HB. pose proof (round16_gt L HM) as HG.
  assert (HF : (-15 <= L <= Z.of_nat (Z.to_nat L))%Z) by lia.
  repeat split.
  - destruct (sm4_crypt_ecb u sk L input output) as [o|] eqn:E; auto. unfold sm4_crypt_ecb in E.
    apply ecb_inv in E; auto. lia.
  - destruct (sm4_crypt_cbc u sk true L iv input output) as [o|] eqn:E; auto. unfold sm4_crypt_cbc in E.
    apply cbc_enc_inv in E; auto. lia.
  - destruct (sm4_crypt_cbc u sk false L iv input output) as [o|] eqn:E; auto. unfold sm4_crypt_cbc in E.
    apply cbc_dec_inv in E; auto. lia.
Qed.
(** with room for whole blocks the same lengths are defined *)
Example C51_ex_main : exists sk o, sm4_setkey_enc UL32 (repeat 0%N 32) ex_key = Ok sk /\
  sm4_crypt_ecb UL32 sk 5 ex_key (repeat 0%N 16) = Ok o /\
  sm4_crypt_ecb UL32 sk 5 (firstn 5 ex_key) (repeat 0%N 16) = UB.
Proof. eexists. eexists. split; [vm_compute; reflexivity|]. split; [vm_compute; reflexivity|]. vm_compute. reflexivity. Qed.
