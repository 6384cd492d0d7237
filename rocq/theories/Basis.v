(** The basis matrix method (test/BasisMatrixMethod_test.c): the tables of widths 8 to 64 hold
    inverse pairs, those of width 128 do not. *)
From Coq Require Import Arith NArith List Bool Lia.
From Verif Require Import Base Tables Model Spec LinAlg Mem Cons Mul Check RowProd ModelBasis SpecBasis.
Import ListNotations.

(** ** The tables *)

Definition tables_ok (w : width) : bool :=
  forallb (fun k => inv_pair w (nth k (basis w) []) (nth k (basis_inv w) [])) (seq 0 16).
Lemma tables8 : tables_ok W8 = true. Proof. vm_compute. reflexivity. Qed.
Lemma tables16 : tables_ok W16 = true. Proof. vm_compute. reflexivity. Qed.
Lemma tables32 : tables_ok W32 = true. Proof. vm_compute. reflexivity. Qed.
Lemma tables64 : tables_ok W64 = true. Proof. vm_compute. reflexivity. Qed.

(** null vectors of MatrixM128[k] (none for k = 14) and of MatrixM128_inv[k] *)
Definition null128 : list N :=
  [0x81974cd0c25006e5fcc4f198ec1c1db3; 0x81974cd0c25006e5fcc4f198ec1c1db3;
   0x81974cd0c25006e5fcc4f198ec1c1db3; 0x81974cd0c25006e5fcc4f198ec1c1db3;
   0x81974cd0c25006e5fcc4f198ec1c1db3; 0x81974cd0c25006e5fcc4f198ec1c1db3;
   0x7c0c249aad890b9011bfdc187a10e723; 0x81974cd0c25006e5fcc4f198ec1c1db3;
   0x81974cd0c25006e5fcc4f198ec1c1db3; 0x5c19b95c92988e7cb4321519d828df12;
   0x8f51e62a3db37777a5dc2b90c1f9aa31; 0x608ba69954b2069aca3d4d52fc997517;
   0x57505a6c9b2f4ef24455c634aa5ed555; 0x8eb43bbdc11ad4d6d0d53a321953f595; 0x0;
   0xd58a878342ed56ae22f741450f9f131d]%N.
Definition null128_inv : list N :=
  [0x80ed230f5d1a004835327bc3f6bdf786; 0xa07d431f7e7d1008573afb02f287a7c9;
   0x82c5712e4f9a168415123bebfa8d0fd1; 0x8aeda90b575bf061716223c3fc89ef84;
   0x96fd230d570518005d327b45febd2581; 0x886da23f7f39104054361dc1ee99a481;
   0xafd050f5f1151b065527ac3d6dde770; 0xa26d025fdb171101d9265eedb63ca5ea;
   0x88bd232f6f1b104405337bd5d859e0f1; 0xd28d238f4f581800553273c3bbade2d4;
   0x5c08ae2e3f4712aad6f3ab4ece28d467; 0x5365bcd566dbbfff5abdbfb0cdcd3438;
   0x9840142235e2d366e7c31fca5ed815c4; 0xf08248ee048ae8520fc1628554694eaf;
   0xe7fbf715fe5e234756aa7d74d1703bfe; 0x9471a907d0c0deb22976fa21fc33e91e]%N.
(** the inverse of MatrixM128[14] *)
Definition inv128_14 : list (list N) :=
  [[0x9ce6b0bb251d8e10; 0x80cddbbec8a206e]; [0x897de4728817a380; 0x7e302c8680235237];
   [0x857792c813b1b6aa; 0x9abf44f08036cd9a]; [0x3887408d764a3d69; 0xdbd1d9f1b17bdae];
   [0xd8e29453cc1be412; 0x28a9226d0fa05c3]; [0x43c8ba1736ef13dc; 0x98c464956777d614];
   [0x2fae2c93e57f94ae; 0x66236f0b85c75a39]; [0x39f69e7d8f17ad46; 0x7cb5ef6e9bcfe78];
   [0xada9174e97194ae7; 0xdfb2dd4a9aa9f209]; [0x27c600013be05abb; 0x3e1c8c8a90d78e63];
   [0xe97819ad088ccecf; 0x70a2bc83ca6c12ae]; [0x1f112190f329cd15; 0x33c06e4d7561bcb1];
   [0x7d26e32d9121a433; 0x4fcfea1aecee7ea]; [0x81fc7d77d0f740c4; 0x5948bcee7c11507e];
   [0xe6884c05d2aa8530; 0xbe42b18082dcf031]; [0x89a8ff7905a75d2a; 0xb9eef2251e2570c5];
   [0x4af764edb2f0ecf; 0x7ebc46afacb6ead6]; [0x612e48c5cbb0428c; 0x961fe6696c309b4a];
   [0xf72d325260a3a21a; 0x8617a788af2a920a]; [0x883fd2f70d9cf6e7; 0xd8a2eb1f115ee01c];
   [0x37e1594e36bbd884; 0x2d801ac0b9b05c2e]; [0xd3e6fc6f05f5783a; 0x2a7a2f99de598ac5];
   [0x7c6b200b2a41a76f; 0x5fd8bfbde356f080]; [0x36ef603e089dcef2; 0xcb482ed2db29b824];
   [0x236dd71775a64e1e; 0x1a5ea7a1215e5dc]; [0x673aabe5ffb7d9cc; 0x413184760027a04c];
   [0x737340f3b64d9d22; 0xc3acebc0d385f68c]; [0x11903f0dfaf65f80; 0xc227ece6457968d1];
   [0x98c0c47c862a3bd5; 0x2e7b1559bd565f63]; [0x1127de3d260a9464; 0x58dd0e0d8da097d3];
   [0x9afc1f135f6ad9d8; 0x295a373fc9184ba8]; [0xf21547949638fc51; 0x205e6e45437e831a];
   [0x4ad0e11bd8406b42; 0x140114238de797f9]; [0x8f9ea8b3d5b719a4; 0xdffa88c4c428f36];
   [0x821b68d212f171f1; 0x65fe1d015dcf7edb]; [0x161a500781275ff2; 0xc652ed396f575bb8];
   [0xf7ad9bd8e9b70d47; 0x11cab80c6b40d41a]; [0xd7153d9bd98d542b; 0x46583b216c13c53];
   [0xcc58c93530fb0cfb; 0x1fcd9f4dbb97b048]; [0xe96c9a27d267d1c6; 0xe0bead787244fadb];
   [0x934cdaeece743864; 0xd8a6467f4e6c5dd8]; [0x37d98682f40e341d; 0xc8cc9712bccf44e1];
   [0xa0855f47c2942f2e; 0x2d0bb8e2831d25be]; [0x8f139ea13756f6fd; 0xc7a1cc82c4c34159];
   [0x9a610e0a9bbb51e3; 0x29cdcc7fb399a62]; [0xb750bcf2c9d29865; 0xda46a28f6445eb57];
   [0x9847e49625ec9a13; 0x290f2cfed0d3a4c4]; [0xc34f410a2537c26a; 0xf93469b94fbb055f];
   [0x32d7762fb1f978c5; 0xcf9f5fe4a7784f21]; [0x1a423d96937dcfc; 0x6c00b282684c4841];
   [0x7893e883b08f270e; 0x8258b75319e90a77]; [0xa8ee8cdf7455a8fc; 0xe31aac49e2ff2fc5];
   [0x33a5d3b3323d6b3e; 0x72383d3c81ec6c2]; [0xb736d9a08445b062; 0x4c8fd37d289a50b8];
   [0xf87b004cf1055d73; 0xcef81143369a273c]; [0x37bbbb6bd9fc6e52; 0xae6d204c0807654c];
   [0x21dd827ed7fb6fcd; 0x7f4ed69e6f7ebca9]; [0xd20b74bb824216c4; 0xb5160957a71640db];
   [0x10ca0bf63ed17446; 0x1ae8d6cf912e74a9]; [0x5363c6e6e4a4b311; 0x226601d7278fea3a];
   [0x786126b7094c3df3; 0x6d456725ee080aab]; [0x93833fb18219a5d5; 0xf25c34cf0057bdfe];
   [0x1b15da44381eac5e; 0xcb407bc3712478ed]; [0x4cda18b02ce8de47; 0x807f3ef2b088e349];
   [0x2cce651baff27077; 0x95e79b4431bb718d]; [0xec4970383ea6a918; 0x473f761155bd931f];
   [0x87583fe99b2665a; 0xea7284dfbc92b3ee]; [0x911266620498dc0c; 0xa4113fb7ce2d449f];
   [0x9f62056b90789862; 0xc2b2c5ab8861d701]; [0xdad133374ec02768; 0x507573e6dc75348b];
   [0xdc5648da81db4653; 0x5bece9be9c268744]; [0xf44feb7875f9a9b0; 0x5c6a573db69d2297];
   [0x6edf57f610f53277; 0xe1c9bd98fa52d00a]; [0xbeb9fc3deb8cac75; 0xc49b3b274a1c305e];
   [0xe921027a306fec8c; 0xe2479d97ef33047]; [0x23ae105529b5db1c; 0xa23ab6a9901984c4];
   [0x5488c9e0ebd0a97c; 0xb2bee1f9207e4c1e]; [0x804599018d165696; 0x6d4fb474ac8288bc];
   [0xa7a16ec06d29cac4; 0xfacf005d98c2a15d]; [0x8a133fd1134c41a9; 0x3135634ca32b54df];
   [0x7d48b6621328c8f5; 0xdd10bca62d4d336]; [0xa14e5581534e53e6; 0xb1ed2ac4568a6897];
   [0x56cdcee489a45839; 0x6fb30546247ff98d]; [0x3f2b9b3a8a574f71; 0xe5f5071d0ee3a096];
   [0x604546d39ec51610; 0xd41d0605ed4f8edd]; [0x6e0e65f7236bf12f; 0x4f9dd0652fc0d5be];
   [0x9f0ae9c62663f204; 0xe1ffe6d1f7a61f5a]; [0x6bcd1b7627a56dbd; 0x830acc6bff3fa07f];
   [0xd8b02bebdb0a3b74; 0xaab093b9c65aee7a]; [0x54fb72590c57c5ce; 0x44d5863001d7b9f4];
   [0x9109fe22fe1b7368; 0x7307296c6c4996e2]; [0xe02fa594173447c9; 0x805c27875c90acdc];
   [0x26f28435c9ba3804; 0xca7f4ef101521255]; [0x55a93da772ff676d; 0x149a57c3782f5503];
   [0xcc2da435b7f730c5; 0x74db4e933320b7d4]; [0x55a2f56836ab9dff; 0xfa9df61ccd829321];
   [0xe17400354d37e8b8; 0xc28dc89b2b6d9f70]; [0x178c3e5ad8afe931; 0xe64ce2b9061f4ecd];
   [0xe4f6d9c52c1d29d; 0x755bbb7edab4a8c7]; [0x7415fe05a2d6d228; 0x1d0174fc79dc0c00];
   [0x7a1ad4dc6ecb7e99; 0x76bc3bdb2abd5871]; [0x5e1a84fb8e31b218; 0x204a1e8242fc19c6];
   [0x9649c517b604a668; 0x48c57bfca434e]; [0x45875a69f665e583; 0x62a7c40ad8e27914];
   [0x508cc638af0c802f; 0xf3d94cbe975351fb]; [0xd6442f40b344791b; 0x391da387463cda4d];
   [0x8b0f3f6c3bd14662; 0xb1f7c7f9115ddbc3]; [0xfaa2204a68028f06; 0x76f6e00d52af1767];
   [0x74b4d08f61ecbbae; 0xf215f1b1e01776df]; [0xeb7e8e0474d40cb1; 0x4159e5da7c1604de];
   [0x33444c570f6b28b3; 0x9bd8f9c404b9b3b6]; [0x7b81345745125a2; 0x8ebaef2100cf540f];
   [0x83f443acd30bdc80; 0x2cdd4dd841bbe329]; [0x76f91049a86b2336; 0xd40acc2794befac4];
   [0x12d92ed55f513f02; 0xec1f9364de9d9cdf]; [0x3f7625a540b22bc8; 0xaf4e8d9719dc12d2];
   [0x62a53eb199b25623; 0xb573a9c15a5259b2]; [0x3ecaa159151acd13; 0x5a5e37b3b8d6e881];
   [0xca4a61f7984610c5; 0xc4395845b5c920d9]; [0x188115364bd19deb; 0x4dd8f1cf4bfd9100];
   [0xd31b90bb65bd3988; 0x5ab68dafc8c27b91]; [0xfed9d85090123a9f; 0x522e11a2b147586e];
   [0x2c133690dd55e65e; 0xb97dac4accaf2b0b]; [0xc298deae76ebc5f8; 0x3b149277942558b0];
   [0xd1ccd60790a3364d; 0xda89b7212b68caba]; [0x5818a60b80a7660c; 0xe845076881a75cf];
   [0x9719618a36c3799a; 0xb0311d9e1894d089]; [0x6c8cf6055fc67271; 0xcac878ebeba9ff20]]%N.

Lemma inv14 : inv_pair W128 (nth 14 MatrixM128 []) inv128_14 = true.
Proof. vm_compute. reflexivity. Qed.
Lemma wf128 : forallb (mat_ofb W128 64) MatrixM128 && forallb (mat_ofb W128 64) MatrixM128_inv = true.
Proof. vm_compute. reflexivity. Qed.
Lemma kills128 : forallb (fun k => Nat.eqb k 14 ||
  kills 128 (nth k MatrixM128 []) (nth k null128 0%N)) (seq 0 16) = true.
Proof. vm_compute. reflexivity. Qed.
Lemma kills128_inv : forallb (fun k =>
  kills 128 (nth k MatrixM128_inv []) (nth k null128_inv 0%N)) (seq 0 16) = true.
Proof. vm_compute. reflexivity. Qed.

(** ** Products along a sequence of draws *)

Lemma wfM_shape' : forall w m, wfM w m -> shapeM w m.
Proof. intros; apply typedM_shape, wfM_typed; auto. Qed.

Lemma small_basis : forall w, w <> W256 -> small w.
Proof. unfold small. destruct w; simpl; intros; try lia. congruence. Qed.

Definition upto64 (w : width) : Prop := w = W8 \/ w = W16 \/ w = W32 \/ w = W64.
Definition upto128 (w : width) : Prop := upto64 w \/ w = W128.

Lemma upto_small : forall w, upto128 w -> small w.
Proof. intros w [[->|[->|[->| ->]]]| ->]; apply small_basis; discriminate. Qed.

Lemma tables_pair : forall w k, upto64 w -> k < 16 ->
  wfM w (nth k (basis w) []) /\ wfM w (nth k (basis_inv w) []) /\
  inverse_of (dim w) (mbit w (nth k (basis w) [])) (mbit w (nth k (basis_inv w) [])).
Proof.
  intros w k Hw Hk.
  assert (H : tables_ok w = true)
    by (destruct Hw as [->|[->|[->| ->]]]; [exact tables8|exact tables16|exact tables32|exact tables64]).
  unfold tables_ok in H. rewrite forallb_forall in H.
  apply inv_pair_ok; [apply upto_small; left; exact Hw|].
  apply H. apply in_seq. lia.
Qed.

Lemma length_basis : forall w, upto128 w -> length (basis w) = 16.
Proof. intros w [[->|[->|[->| ->]]]| ->]; reflexivity. Qed.
Lemma length_basis_inv : forall w, upto128 w -> length (basis_inv w) = 16.
Proof. intros w [[->|[->|[->| ->]]]| ->]; reflexivity. Qed.

Lemma wf_basis : forall w k, upto128 w -> k < 16 -> wfM w (nth k (basis w) []).
Proof.
  intros w k [Hw| ->] Hk; [apply tables_pair; auto|].
  pose proof wf128 as H. apply andb_true_iff in H. destruct H as [H _].
  rewrite forallb_forall in H. apply mat_ofb_ok. apply H. apply nth_In.
  exact Hk.
Qed.
Lemma wf_basis_inv : forall w k, upto128 w -> k < 16 -> wfM w (nth k (basis_inv w) []).
Proof.
  intros w k [Hw| ->] Hk; [apply tables_pair; auto|].
  pose proof wf128 as H. apply andb_true_iff in H. destruct H as [_ H].
  rewrite forallb_forall in H. apply mat_ofb_ok. apply H. apply nth_In.
  exact Hk.
Qed.

Lemma kill_basis : forall k, k < 16 -> k <> 14 ->
  exists x, null_vector 128 (mbit W128 (nth k (basis W128) [])) x.
Proof.
  intros k Hk Hn. pose proof kills128 as H. rewrite forallb_forall in H.
  specialize (H k (proj2 (in_seq _ _ _) (conj (Nat.le_0_l k) Hk))).
  apply orb_true_iff in H. destruct H as [H|H]; [apply Nat.eqb_eq in H; lia|].
  exists (nullv 128 (nth k null128 0%N)).
  apply (kills_ok W128); [apply upto_small; right; reflexivity| |exact H].
  apply wf_basis; auto. right; reflexivity.
Qed.
Lemma kill_basis_inv : forall k, k < 16 ->
  exists x, null_vector 128 (mbit W128 (nth k (basis_inv W128) [])) x.
Proof.
  intros k Hk. pose proof kills128_inv as H. rewrite forallb_forall in H.
  specialize (H k (proj2 (in_seq _ _ _) (conj (Nat.le_0_l k) Hk))).
  exists (nullv 128 (nth k null128_inv 0%N)).
  apply (kills_ok W128); [apply upto_small; right; reflexivity| |exact H].
  apply wf_basis_inv; auto. right; reflexivity.
Qed.
Lemma inv_basis_14 : inverse_of 128 (mbit W128 (nth 14 (basis W128) [])) (mbit W128 inv128_14).
Proof.
  assert (Hs : small W128) by (apply upto_small; right; reflexivity).
  exact (proj2 (proj2 (inv_pair_ok W128 _ _ Hs inv14))).
Qed.

Global Opaque basis basis_inv.

Lemma fprod_ext : forall n k f g, (forall i, i < k -> feq n (f i) (g i)) ->
  feq n (fprod n k f) (fprod n k g).
Proof.
  induction k as [|k IH]; intros f g H; cbn [fprod]; [reflexivity|].
  rewrite (IH f g), (H k) by (intros; try apply H; lia). reflexivity.
Qed.
Lemma fprod_inverse : forall n k f g, (forall i, i < k -> inverse_of n (f i) (g i)) ->
  inverse_of n (fprod n k f) (fprod n k (fun i => g (k - 1 - i))).
Proof.
  intros n k f g H.
  assert (X : forall j, j <= k -> exists B, inverse_of n (fprod n j f) B /\
    feq n (fprod n k (fun i => g (k - 1 - i)))
          (fmul n (fprod n (k - j) (fun i => g (k - 1 - i))) B)).
  { induction j as [|j IH]; intros Hj.
    - exists fid. split; [cbn [fprod]; apply inverse_of_fid|].
      rewrite fmul_id_r. replace (k - 0) with k by lia. reflexivity.
    - destruct IH as [B [H1 H2]]; [lia|]. exists (fmul n (g j) B). split.
      + cbn [fprod]. apply inverse_of_mul; auto.
      + rewrite H2. replace (k - j) with (S (k - S j)) by lia. cbn [fprod].
        replace (k - 1 - (k - S j)) with j by lia. apply fmul_assoc. }
  destruct (X k (le_n k)) as [B [H1 H2]]. rewrite Nat.sub_diag in H2. cbn [fprod] in H2.
  rewrite fmul_id_l in H2. rewrite H2. exact H1.
Qed.
Lemma fprod_invertible : forall n k f, (forall i, i < k -> invertible n (f i)) ->
  invertible n (fprod n k f).
Proof.
  induction k as [|k IH]; intros f H; cbn [fprod].
  - exists fid. apply inverse_of_fid.
  - apply invertible_mul; auto.
Qed.
(** one singular factor, all factors singular or invertible: the product is singular *)
Lemma fprod_singular : forall n k f,
  (forall i, i < k -> invertible n (f i) \/ exists x, null_vector n (f i) x) ->
  (exists i x, i < k /\ null_vector n (f i) x) -> exists x, null_vector n (fprod n k f) x.
Proof.
  induction k as [|k IH]; intros f H [i [x [Hi Hx]]]; [lia|]. cbn [fprod].
  destruct (H k (Nat.lt_succ_diag_r k)) as [[B HB]|[y Hy]].
  - destruct (Nat.eq_dec i k) as [->|].
    + exists x. apply null_mul_l. exact Hx.
    + destruct (IH f) as [z Hz]; [intros; apply H; lia|exists i, x; split; [lia|exact Hx]|].
      exists (fapp n B z). apply null_mul_r; auto.
  - exists y. apply null_mul_l. exact Hy.
Qed.

(** ** The functions *)

Lemma draw_lt : forall r i, N.to_nat (draw r i) < 16.
Proof. intros r i. unfold draw. pose proof (N.mod_lt (r i) 16). lia. Qed.

(** the factors along a sequence of table indices *)
Definition along (w : width) (tab : list (list (list N))) (d : nat -> N) (i : nat) : fmat :=
  mbit w (nth (N.to_nat (d i)) tab []).

Lemma mul_loop_wp : forall e w d t, upto128 w -> wfM w t ->
  (forall i, i < nmul w -> N.to_nat (d i) < 16) ->
  feq (dim w) (mbit w t) fid ->
  wp (for_up 0 (nmul w) (fun i t => b <- aget (basis w) (N.to_nat (d i)) ;; MatMulMat e w t b t) t)
     (fun t' => wfM w t' /\
        feq (dim w) (mbit w t') (fprod (dim w) (nmul w) (along w (basis w) d))).
Proof.
  intros e w d t Hw Ht Hd Hid.
  apply wp_for_up with (I := fun i t' => wfM w t' /\
     feq (dim w) (mbit w t') (fprod (dim w) i (along w (basis w) d))).
  - lia.
  - split; auto.
  - intros i t' _ Hi [H1 H2]. apply wp_bind.
    apply wp_aget with (d := []); [rewrite length_basis by auto; apply Hd; auto|].
    eapply wp_mono; [apply MatMulMat_wp|].
    + apply wfM_typed; auto.
    + apply wf_basis; auto.
    + apply wfM_shape'; auto.
    + intros r [E1 E2]. split; auto. rewrite E2. cbn [fprod]. rewrite H2. reflexivity.
  - auto.
Qed.

Lemma mul_loop_down_wp : forall e w (get : nat -> res N) d t, upto128 w -> wfM w t ->
  (forall i, i < nmul w -> get i = Ok (d i) /\ N.to_nat (d i) < 16) ->
  feq (dim w) (mbit w t) fid ->
  wp (for_down (nmul w) 0 (fun i t => x <- get i ;; b <- aget (basis_inv w) (N.to_nat x) ;;
        MatMulMat e w t b t) t)
     (fun t' => wfM w t' /\ feq (dim w) (mbit w t')
        (fprod (dim w) (nmul w) (fun i => along w (basis_inv w) d (nmul w - 1 - i)))).
Proof.
  intros e w get d t Hw Ht Hd Hid.
  apply wp_for_down with (I := fun i t' => wfM w t' /\ feq (dim w) (mbit w t')
     (fprod (dim w) (nmul w - i) (fun i => along w (basis_inv w) d (nmul w - 1 - i)))).
  - lia.
  - split; auto. rewrite Nat.sub_diag. exact Hid.
  - intros i t' _ Hi [H1 H2]. destruct (Hd i Hi) as [E Hlt]. apply wp_bind. rewrite E.
    apply wp_ok. apply wp_bind.
    apply wp_aget with (d := []); [rewrite length_basis_inv by auto; auto|].
    eapply wp_mono; [apply MatMulMat_wp|].
    + apply wfM_typed; auto.
    + apply wf_basis_inv; auto.
    + apply wfM_shape'; auto.
    + intros r [E1 E2]. split; auto. rewrite E2, H2.
      replace (nmul w - i) with (S (nmul w - S i)) by lia. cbn [fprod].
      replace (nmul w - 1 - (nmul w - S i)) with i by lia. reflexivity.
  - rewrite Nat.sub_0_r. auto.
Qed.

Lemma InvT_basis_wp : forall e w r t0 m seed, upto128 w -> shapeM w t0 -> shapeM w m ->
  seed <> (2 ^ 31 - 1)%N ->
  wp (InvT_basis e w r t0 m seed) (fun a => let (m', seed') := a in
    seed' = ((seed + 1) mod 2 ^ 32)%N /\ wfM w m' /\
    feq (dim w) (mbit w m') (fprod (dim w) (nmul w) (along w (basis w) (draw r)))).
Proof.
  intros e w r t0 m seed Hw Ht Hm Hs. unfold InvT_basis.
  rewrite identityM_ok by auto. cbn [bind]. unfold next_seed.
  destruct (N.eqb_spec seed (2 ^ 31 - 1)); [contradiction|]. cbn [bind].
  apply wp_bind. eapply wp_mono; [apply mul_loop_wp; auto|].
  - apply wf_id.
  - intros; apply draw_lt.
  - apply mbit_id.
  - intros t2 [H1 H2]. rewrite copyM_ok by (auto using wfM_shape'). cbn [bind wp].
    split; [reflexivity|]. split; auto.
Qed.

Lemma Trail_wp : forall w r k tm, k < length tm -> length (nth k tm []) = nmul w ->
  wp (Trail w r k tm) (fun tm' => length tm' = length tm /\
    (forall j, j <> k -> nth j tm' [] = nth j tm []) /\
    length (nth k tm' []) = nmul w /\
    (forall i, i < nmul w -> nth i (nth k tm' []) 0%N = draw r i)).
Proof.
  intros w r k tm Hk Hl. unfold Trail.
  apply wp_for_up with (I := fun i tm' => length tm' = length tm /\
    (forall j, j <> k -> nth j tm' [] = nth j tm []) /\
    length (nth k tm' []) = nmul w /\
    (forall i', i' < i -> nth i' (nth k tm' []) 0%N = draw r i')).
  - lia.
  - repeat split; auto. intros; lia.
  - intros i tm' _ Hi (H1 & H2 & H3 & H4). apply wp_bind.
    apply wp_aget with (d := []); [lia|]. apply wp_bind. apply wp_aset; [lia|].
    apply wp_aset; [lia|]. split; [rewrite length_upd; auto|]. split; [|split].
    + intros j Hj. rewrite nth_upd by lia. destruct (Nat.eqb_spec j k); [contradiction|]. auto.
    + rewrite nth_upd by lia. rewrite Nat.eqb_refl, length_upd. auto.
    + intros i' Hi'. rewrite nth_upd by lia. rewrite Nat.eqb_refl. rewrite nth_upd by lia.
      destruct (Nat.eqb_spec i' i) as [->|]; [reflexivity|]. apply H4. lia.
  - auto.
Qed.

Lemma InvS_basis_wp : forall e w t0 v tm k, upto128 w -> shapeM w t0 -> shapeM w v ->
  k < length tm -> length (nth k tm []) = nmul w ->
  (forall i, i < nmul w -> (nth i (nth k tm []) 0 < 16)%N) ->
  wp (InvS_basis e w t0 v tm k) (fun v' => wfM w v' /\ feq (dim w) (mbit w v')
    (fprod (dim w) (nmul w) (fun i => along w (basis_inv w)
       (fun i => nth i (nth k tm []) 0%N) (nmul w - 1 - i)))).
Proof.
  intros e w t0 v tm k Hw Ht Hv Hk Hl Hd. unfold InvS_basis.
  rewrite identityM_ok by auto. cbn [bind]. apply wp_bind.
  assert (E : forall t, for_down (nmul w) 0 (fun i t => row <- aget tm k ;; x <- aget row i ;;
          b <- aget (basis_inv w) (N.to_nat x) ;; MatMulMat e w t b t) t =
     for_down (nmul w) 0 (fun i t => x <- (row <- aget tm k ;; aget row i) ;;
          b <- aget (basis_inv w) (N.to_nat x) ;; MatMulMat e w t b t) t).
  { intros t. unfold for_down. generalize (nmul w - 0) as c. intros c. revert t.
    induction c as [|c IH]; intros t; [reflexivity|]. cbn [down_n].
    destruct (aget tm k) as [row|]; [|reflexivity]. cbn [bind].
    destruct (aget row (0 + c)) as [x|]; [|reflexivity]. cbn [bind].
    destruct (aget (basis_inv w) (N.to_nat x)) as [b|]; [|reflexivity]. cbn [bind].
    destruct (MatMulMat e w t b t); [|reflexivity]. cbn [bind]. apply IH. }
  rewrite E. eapply wp_mono.
  - apply (mul_loop_down_wp e w _ (fun i => nth i (nth k tm []) 0%N)); auto.
    + apply wf_id.
    + intros i Hi. split; [|specialize (Hd i Hi); lia].
      rewrite (aget_ok _ tm k []) by auto. cbn [bind]. apply aget_ok. lia.
    + apply mbit_id.
  - intros t2 [H1 H2]. rewrite copyM_ok by (auto using wfM_shape'). cbn [wp]. split; auto.
Qed.

Lemma Matrixpair_basis_wp : forall e w r t0 u0 m v seed, upto128 w -> shapeM w t0 ->
  shapeM w u0 -> shapeM w m -> shapeM w v -> seed <> (2 ^ 31 - 1)%N ->
  wp (Matrixpair_basis e w r t0 u0 m v seed) (fun a => let '(m', v', seed') := a in
    seed' = ((seed + 1) mod 2 ^ 32)%N /\ wfM w m' /\ wfM w v' /\
    feq (dim w) (mbit w m') (fprod (dim w) (nmul w) (along w (basis w) (draw r))) /\
    feq (dim w) (mbit w v') (fprod (dim w) (nmul w)
       (fun i => along w (basis_inv w) (draw r) (nmul w - 1 - i)))).
Proof.
  intros e w r t0 u0 m v seed Hw Ht Hu Hm Hv Hs. unfold Matrixpair_basis.
  rewrite !identityM_ok by auto. cbn [bind]. unfold next_seed.
  destruct (N.eqb_spec seed (2 ^ 31 - 1)); [contradiction|]. cbn [bind].
  apply wp_bind.
  apply wp_for_up with (I := fun i st => wfM w (fst st) /\
     feq (dim w) (mbit w (fst st)) (fprod (dim w) i (along w (basis w) (draw r))) /\
     length (snd st) = nmul w /\ forall i', i' < i -> nth i' (snd st) 0%N = draw r i').
  - lia.
  - cbn [fst snd]. split; [apply wf_id|]. split; [apply mbit_id|].
    split; [apply repeat_length|intros; lia].
  - intros i [t flag] _ Hi (H1 & H2 & H3 & H4). cbn [fst snd] in *. apply wp_bind.
    apply wp_aget with (d := []); [rewrite length_basis by auto; apply draw_lt|].
    apply wp_bind. eapply wp_mono; [apply MatMulMat_wp|].
    + apply wfM_typed; auto.
    + apply wf_basis; auto using draw_lt.
    + apply wfM_shape'; auto.
    + intros t' [E1 E2]. apply wp_bind. apply wp_aset; [lia|]. apply wp_ok. cbn [fst snd].
      split; auto. split; [rewrite E2; cbn [fprod]; rewrite H2; reflexivity|].
      split; [rewrite length_upd; auto|]. intros i' Hi'. rewrite nth_upd by lia.
      destruct (Nat.eqb_spec i' i) as [->|]; [reflexivity|]. apply H4. lia.
  - intros [t2 flag] (H1 & H2 & H3 & H4). cbn [fst snd] in *. apply wp_bind.
    eapply wp_mono.
    + apply (mul_loop_down_wp e w _ (draw r)); auto.
      * apply wf_id.
      * intros i Hi. split; [|apply draw_lt].
        rewrite (aget_ok _ flag i 0%N) by lia. rewrite H4 by auto. reflexivity.
      * apply mbit_id.
    + intros u2 [G1 G2]. rewrite copyM_ok by (auto using wfM_shape'). cbn [bind].
      rewrite copyM_ok by (auto using wfM_shape'). cbn [bind wp].
      refine (conj eq_refl (conj H1 (conj G1 (conj H2 G2)))).
Qed.
