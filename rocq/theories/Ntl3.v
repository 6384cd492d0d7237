(** Further lemmas for ModelNtl.v: rows of random matrices, small dimensions, augmented matrices and the
    functions on numbers. *)
From Coq Require Import Arith NArith ZArith List Bool Lia ZifyNat Setoid Morphisms.
From Verif Require Import Base Spec LinAlg SpecGf2 Gf2a Gf2b ModelNtl SpecNtl Ntl1 Ntl2.
From Verif Require ModelSM4 WBSM4M GenBad.
Import ListNotations.
Local Open Scope nat_scope.

(** ** The rows that are taken *)

Lemma rows_from_rows : forall rnd m n s s' l, rows_from rnd m n s s' l -> forall r, In r l -> length r = m /\ ones r <> 1.
Proof.
  intros rnd m n s s' l H. induction H; intros r Hr.
  - destruct Hr.
  - apply IHrows_from. exact Hr.
  - destruct Hr as [<-|Hr]; [split; [apply block_length|assumption]|apply IHrows_from; exact Hr].
Qed.
Lemma inv_from_rows : forall rnd n s s' l, inv_from rnd n s s' l -> forall r, In r l -> length r = n /\ ones r <> 1.
Proof. intros rnd n s s' l H. induction H; auto. apply (rows_from_rows _ _ _ _ _ _ H). Qed.
Lemma rows_from_length : forall rnd m n s s' l, rows_from rnd m n s s' l -> length l = n.
Proof. intros rnd m n s s' l H. induction H; cbn [length]; congruence. Qed.
Lemma inv_from_length : forall rnd n s s' l, inv_from rnd n s s' l -> length l = n.
Proof. intros rnd n s s' l H. induction H; auto. apply (rows_from_length _ _ _ _ _ _ H). Qed.

(** With at most two columns there is no invertible matrix without such rows *)
Lemma no_dim1 : forall rnd s s' l, ~ inv_from rnd 1 s s' l.
Proof.
  intros rnd s s' l H. assert (L := inv_from_length _ _ _ _ _ H). assert (R := inv_from_rows _ _ _ _ _ H).
  assert (HI : invertible 1 (gat (mkgmat 1 1 l))) by (induction H; auto).
  destruct l as [|r [|? ?]]; try discriminate L. destruct (R r (or_introl eq_refl)) as [L1 O1].
  destruct r as [|b [|? ?]]; try discriminate L1. destruct b; [exfalso; apply O1; reflexivity|].
  destruct HI as [B [HB _]]. specialize (HB 0 0 ltac:(lia) ltac:(lia)). discriminate HB.
Qed.
Lemma no_dim2 : forall rnd s s' l, ~ inv_from rnd 2 s s' l.
Proof.
  intros rnd s s' l H. assert (L := inv_from_length _ _ _ _ _ H). assert (R := inv_from_rows _ _ _ _ _ H).
  assert (HI : invertible 2 (gat (mkgmat 2 2 l))) by (induction H; auto).
  destruct l as [|r0 [|r1 [|? ?]]]; try discriminate L.
  destruct (R r0 (or_introl eq_refl)) as [L0 O0]. destruct (R r1 (or_intror (or_introl eq_refl))) as [L1 O1].
  destruct r0 as [|a [|b [|? ?]]]; try discriminate L0. destruct r1 as [|c [|d [|? ?]]]; try discriminate L1.
  destruct HI as [B [HB _]]. pose proof (HB 0 0 ltac:(lia) ltac:(lia)) as H00. pose proof (HB 0 1 ltac:(lia) ltac:(lia)) as H01.
  pose proof (HB 1 0 ltac:(lia) ltac:(lia)) as H10. pose proof (HB 1 1 ltac:(lia) ltac:(lia)) as H11.
  unfold fmul, gat in H00, H01, H10, H11. cbn [xsum nth gdata] in H00, H01, H10, H11.
  destruct a, b; try (exfalso; apply O0; reflexivity); destruct c, d; try (exfalso; apply O1; reflexivity);
    destruct (B 0 0), (B 0 1), (B 1 0), (B 1 1); discriminate.
Qed.

(** ** RandMat::init and the other loops *)

Section Ntl.
Variable nt : ntl.
Hypothesis HN : ntl_ok nt.

Lemma init_exact : forall fuel n s,
  wp (RandMat_init fuel nt n true s) (fun o => match o with
    | None => True
    | Some (A, B, s') => exists l B', A = mkgmat n n l /\ B = Some B' /\ inv_from (trand nt) n s s' l /\
        gok n n A /\ gok n n B' /\ inverse_of n (gat A) (gat B') end).
Proof.
  intros fuel n s. unfold RandMat_init. rewrite init_loop_eq by apply gdims_ok. apply wp_bind.
  eapply wp_mono; [apply random_inv_sound; exact HN|]. intros [[A s']|]; [|intros _; apply wp_ok; exact I].
  intros (l & -> & Hl). destruct (inv_from_ok _ _ _ _ _ Hl) as [HG HI].
  apply wp_bind. apply (wp_ginv nt n); auto. intros B HB HV. apply wp_ok. exists l, B. auto 10.
Qed.
Lemma init_complete : forall n s s' l, inv_from (trand nt) n s s' l ->
  exists f0 B, forall f, f0 <= f -> RandMat_init f nt n true s = Ok (Some (mkgmat n n l, Some B, s')).
Proof.
  intros n s s' l Hl. destruct (random_inv_complete nt HN n s s' l Hl) as [f0 E]. destruct (inv_from_ok _ _ _ _ _ Hl) as [HG HI].
  destruct (wp_ex _ _ _ (wp_ginv nt n (mkgmat n n l) (fun _ => True) HN HG HI (fun _ _ _ => I))) as (B & EB & _).
  exists f0, B. intros f Hf. unfold RandMat_init. rewrite init_loop_eq by apply gdims_ok. rewrite E by assumption. cbn [bind].
  rewrite EB. reflexivity.
Qed.
Lemma init_nomb : forall fuel n s,
  wp (RandMat_init fuel nt n false s) (fun o => match o with
    | None => True
    | Some (A, B, s') => B = None /\ exists l, A = mkgmat n n l /\ rows_from (trand nt) n n s s' l end).
Proof.
  intros fuel n s. unfold RandMat_init. destruct fuel; cbn [init_loop]; rewrite (draw_rows_eq nt) by apply gdims_ok; cbn [bind negb].
  - destruct (find_rows _ (trand nt) n n s) as [[l s1]|] eqn:E; apply wp_ok; [|exact I].
    split; [reflexivity|]. exists l. split; [reflexivity|]. apply find_rows_sound in E. exact E.
  - destruct (find_rows _ (trand nt) n n s) as [[l s1]|] eqn:E; apply wp_ok; [|exact I].
    split; [reflexivity|]. exists l. split; [reflexivity|]. apply find_rows_sound in E. exact E.
Qed.
Lemma init_small : forall fuel n s, n = 1 \/ n = 2 -> RandMat_init fuel nt n true s = Ok None.
Proof.
  intros fuel n s Hn. destruct (wp_ex _ _ _ (init_exact fuel n s)) as (o & E & H). rewrite E. f_equal.
  destruct o as [[[A B] s']|]; [|reflexivity]. exfalso. destruct H as (l & B' & _ & _ & Hl & _).
  destruct Hn as [-> | ->]; [apply (no_dim1 _ _ _ _ Hl)|apply (no_dim2 _ _ _ _ Hl)].
Qed.
Lemma invt_exact : forall fuel n s,
  wp (InvTMat fuel nt n s) (fun o => match o with
    | None => True
    | Some (A, s') => exists l, A = mkgmat n n l /\ inv_from (trand nt) n s s' l end).
Proof. intros fuel n s. unfold InvTMat. rewrite (invt_loop_eq nt) by apply gdims_ok. apply random_inv_sound. exact HN. Qed.
Lemma geninv_exact : forall fuel n s,
  wp (genRandomInvMatrix fuel nt n s) (fun o => match o with
    | None => True
    | Some (X, Y, s') => exists l, X = mkgmat n n l /\ inv_from (trand nt) n s s' l /\ gok n n Y /\ inverse_of n (gat X) (gat Y) end).
Proof.
  intros fuel n s. unfold genRandomInvMatrix. apply wp_bind. eapply wp_mono; [apply random_inv_sound; exact HN|].
  intros [[X s']|]; [|intros _; apply wp_ok; exact I]. intros (l & -> & Hl). destruct (inv_from_ok _ _ _ _ _ Hl) as [HG HI].
  apply wp_bind. apply (wp_ginv nt n); auto. intros Y HY HV. apply wp_ok. exists l. auto.
Qed.

(** ** Augmented matrices *)

Definition aug (n : nat) (L : fmat) (t : fvec) : fmat := fun i j =>
  if Nat.ltb i n then (if Nat.ltb j n then L i j else t i) else Nat.eqb i j.
Lemma aug_app : forall n L t x i, i < S n ->
  fapp (S n) (aug n L t) x i = if Nat.ltb i n then xorb (fapp n L x i) (t i && x n) else x n.
Proof.
  intros n L t x i Hi. unfold fapp. cbn [xsum]. unfold aug. destruct (Nat.ltb_spec i n).
  - destruct (Nat.ltb_spec n n); [lia|]. f_equal. apply xsum_ext. intros k Hk. destruct (Nat.ltb_spec k n); [reflexivity|lia].
  - assert (i = n) by lia. subst i. rewrite Nat.eqb_refl. cbn [andb].
    rewrite xsum_false; [destruct (x n); reflexivity|]. intros k Hk. destruct (Nat.eqb_spec n k); [lia|reflexivity].
Qed.
Lemma aug_mul : forall n A s B t, feq (S n) (fmul (S n) (aug n A s) (aug n B t)) (aug n (fmul n A B) (vadd (fapp n A t) s)).
Proof.
  intros n A s B t i j Hi Hj. change (fmul (S n) (aug n A s) (aug n B t) i j) with (fapp (S n) (aug n A s) (fun k => aug n B t k j) i).
  rewrite aug_app by exact Hi. unfold aug. destruct (Nat.ltb_spec n n); [lia|]. destruct (Nat.ltb_spec i n).
  - destruct (Nat.ltb_spec j n).
    + destruct (Nat.eqb_spec n j); [lia|]. rewrite andb_false_r, xorb_false_r. unfold fapp, fmul. apply xsum_ext.
      intros k Hk. destruct (Nat.ltb_spec k n); [reflexivity|lia].
    + assert (j = n) by lia. subst j. rewrite Nat.eqb_refl, andb_true_r. unfold vadd. f_equal. unfold fapp. apply xsum_ext.
      intros k Hk. destruct (Nat.ltb_spec k n); [reflexivity|lia].
  - assert (i = n) by lia. subst i. reflexivity.
Qed.
Lemma aug_ext : forall n A B s t, feq n A B -> veq n s t -> feq (S n) (aug n A s) (aug n B t).
Proof.
  intros n A B s t H1 H2 i j Hi Hj. unfold aug. destruct (Nat.ltb_spec i n); [|reflexivity].
  destruct (Nat.ltb_spec j n); [apply H1; assumption|apply H2; assumption].
Qed.
Lemma aug_id : forall n, feq (S n) (aug n fid (fun _ => false)) fid.
Proof.
  intros n i j Hi Hj. unfold aug, fid. destruct (Nat.ltb_spec i n); [|reflexivity]. destruct (Nat.ltb_spec j n); [reflexivity|].
  destruct (Nat.eqb_spec i j); [lia|reflexivity].
Qed.
Lemma aug_inv : forall n A B t, inverse_of n A B -> inverse_of (S n) (aug n A t) (aug n B (fapp n B t)).
Proof.
  intros n A B t [H1 H2]. split; rewrite aug_mul; (etransitivity; [|apply aug_id]); apply aug_ext; auto.
  - intros i Hi. unfold vadd. rewrite <- (fmul_fapp n A B t i Hi). rewrite (fapp_proper n _ _ H1 t t (reflexivity t) i Hi).
    rewrite (fapp_id n t i Hi). apply xorb_nilpotent.
  - intros i Hi. unfold vadd. apply xorb_nilpotent.
Qed.

Lemma aug_exact : forall fuel n s,
  wp (genRandomAffineAugmentedMatrix fuel nt n s) (fun o => match o with
    | None => True
    | Some (X, Y, s') => exists l s1, inv_from (trand nt) n s s1 l /\ s' = s1 + n /\
        gok (n + 1) (n + 1) X /\ gok (n + 1) (n + 1) Y /\
        feq (n + 1) (gat X) (aug n (gat (mkgmat n n l)) (gv (block (trand nt) n s1))) /\
        inverse_of (n + 1) (gat X) (gat Y) end).
Proof.
  intros fuel n s. unfold genRandomAffineAugmentedMatrix. apply wp_bind. eapply wp_mono; [apply random_inv_sound; exact HN|].
  intros [[L s1]|]; [|intros _; apply wp_ok; exact I]. intros (l & -> & Hl). destruct (inv_from_ok _ _ _ _ _ Hl) as [HG HI].
  apply wp_bind. apply (wp_ginv nt n); auto. intros Li HLi HV. rewrite (initVec_eq nt). cbn [bind].
  set (L := mkgmat n n l) in *. set (t := block (trand nt) n s1). assert (Lt : length t = n) by apply block_length.
  apply wp_bind. apply wp_for_up with (I := fun i X => gok (n + 1) (n + 1) X /\ forall a b, a < i -> b < n -> gat X a b = gat L a b);
    [lia|split; [apply gdims_ok|intros; lia]| |].
  { intros i M _ Hi [HM EM]. apply (gwp_fill_row (n + 1) (n + 1) M i 0 n n (gat L i)); [exact HM|lia|lia|reflexivity| |].
    - intros j M' Q1 Hj HM' HQ1. apply wp_bind, (wp_gget n n); auto. apply (wp_gput (n + 1) (n + 1)); auto; lia.
    - intros M1 HM1 E1. split; [exact HM1|]. intros a b Ha Hb. rewrite E1. destruct (Nat.eqb_spec a i) as [->|]; cbn [andb].
      + destruct (Nat.leb_spec 0 b); [|lia]. destruct (Nat.ltb_spec b (0 + n)); [|lia]. cbn [andb]. f_equal. lia.
      + apply EM; lia. }
  intros X1 [HX1 E1]. apply wp_bind. apply (gwp_fill_row (n + 1) (n + 1) X1 n 0 n n (fun _ => false)); [exact HX1|lia|lia|reflexivity| |].
  { intros j M' Q1 Hj HM' HQ1. apply (wp_gput (n + 1) (n + 1)); auto; lia. }
  intros X2 HX2 E2. apply wp_bind. apply (wp_gput (n + 1) (n + 1)); auto; [lia|lia|]. intros X3 HX3 E3.
  apply wp_bind. apply wp_for_up with (I := fun i X => gok (n + 1) (n + 1) X /\
    forall a b, a < n + 1 -> b < n + 1 -> gat X a b = if Nat.ltb a i && Nat.eqb b n then gv t a else gat X3 a b);
    [lia|split; [exact HX3|reflexivity]| |].
  { intros i M _ Hi [HM EM]. apply wp_bind, (wp_vget n); auto. apply (wp_gput (n + 1) (n + 1)); auto; [lia|lia|].
    intros M1 HM1 E4. split; [exact HM1|]. intros a b Ha Hb. rewrite E4. destruct (Nat.eqb_spec a i) as [->|]; cbn [andb].
    - destruct (Nat.ltb_spec i (S i)); [|lia]. destruct (Nat.eqb_spec b n); cbn [andb]; [reflexivity|].
      rewrite EM by lia. destruct (Nat.eqb_spec b n); [lia|]. rewrite andb_false_r. reflexivity.
    - rewrite EM by lia. destruct (Nat.ltb_spec a i), (Nat.ltb_spec a (S i)); try lia; reflexivity. }
  intros X [HX EX]. replace (n + 1) with (S n) in * by lia.
  assert (EA : feq (S n) (gat X) (aug n (gat L) (gv t))).
  { intros a b Ha Hb. rewrite EX, E3, E2 by lia. unfold aug. destruct (Nat.ltb_spec a n); cbn [andb].
    - destruct (Nat.eqb_spec b n) as [->|]; cbn [andb].
      + destruct (Nat.ltb_spec n n); [lia|reflexivity].
      + destruct (Nat.eqb_spec a n); [lia|]. cbn [andb]. destruct (Nat.ltb_spec b n); [|lia]. apply E1; lia.
    - assert (a = n) by lia. subst a. rewrite Nat.eqb_refl. cbn [andb]. destruct (Nat.eqb_spec b n) as [->|].
      + rewrite Nat.eqb_refl. reflexivity.
      + destruct (Nat.leb_spec 0 b); [|lia]. destruct (Nat.ltb_spec b (0 + n)); [|lia]. cbn [andb].
        destruct (Nat.eqb_spec n b); [lia|reflexivity]. }
  assert (HIX : invertible (S n) (gat X)).
  { destruct HI as [B HB]. apply (invertible_ext (S n) (aug n (gat L) (gv t))); [symmetry; exact EA|].
    exists (aug n B (fapp n B (gv t))). apply aug_inv. exact HB. }
  apply wp_bind, (wp_ginv nt (S n)); auto. intros Y HY HXY. apply wp_ok. exists l, s1. auto 10.
Qed.

(** ** Numbers *)

Lemma getVec_loop : forall m s, 32 <= m ->
  wp (for_down 32 0 (fun i st => let (v, t) := st : gvec * N in
      v <- vput v i (to_GF2 (Z.of_N (t mod 2))) ;; Ok (v, N.shiftr t 1)) (gzero m, s))
     (fun st => length (fst st) = m /\ forall i, i < 32 -> gv (fst st) i = bits 32 s i).
Proof.
  intros m s Hm. apply wp_for_down with (I := fun k (st : gvec * N) => length (fst st) = m /\
    (forall b, N.testbit (snd st) (N.of_nat b) = N.testbit s (N.of_nat (b + (32 - k)))) /\
    forall i, k <= i -> i < 32 -> gv (fst st) i = bits 32 s i).
  - lia.
  - cbn [fst snd]. split; [apply repeat_length|]. split; [intros b; do 2 f_equal; lia|intros; lia].
  - intros i [v t] _ Hi (L & E1 & E2). cbn [fst snd] in *. apply wp_bind, (wp_vput m); auto; [lia|]. intros v' L' E'. apply wp_ok.
    cbn [fst snd]. split; [exact L'|]. split.
    + intros b. rewrite N.shiftr_spec by lia. replace (N.of_nat b + 1)%N with (N.of_nat (S b)) by lia. rewrite E1. do 2 f_equal. lia.
    + intros a Ha Ha2. rewrite E'. destruct (Nat.eqb_spec a i) as [->|]; [|apply E2; lia].
      unfold to_GF2. rewrite N2Z.inj_mod. specialize (E1 0). cbn [N.of_nat] in E1. unfold bits.
      replace (32 - 1 - i) with (0 + (32 - S i)) by lia. rewrite <- E1. rewrite N.bit0_odd.
      rewrite <- Z.bit0_odd. change (Z.of_N 2) with (2 ^ 1)%Z. rewrite Z.mod_pow2_bits_low by lia. rewrite Z.bit0_odd.
      destruct t as [|[?|?|]]; reflexivity.
  - intros st (L & _ & E). split; [exact L|]. intros i Hi. apply E; lia.
Qed.
Lemma getVec_eq : forall s, getVecFrom32 s = Ok (vbits 32 s).
Proof.
  intros s. apply wp_eq. unfold getVecFrom32. apply wp_bind. eapply wp_mono; [apply (getVec_loop 32); lia|]. intros [v t] [L E].
  apply wp_ok. apply vbits_of; [exact L|exact E].
Qed.
Lemma getAug_eq : forall s, getAugmentedVecFrom32 s = Ok (vbits 32 s ++ [true]).
Proof.
  intros s. apply wp_eq. unfold getAugmentedVecFrom32. apply wp_bind. eapply wp_mono; [apply (getVec_loop 33); lia|]. intros [v t] [L E].
  cbn [fst] in *. apply (wp_vput 33); auto. intros v' L' E'. apply (gv_ext 33); [exact L'|rewrite app_length, vbits_length; reflexivity|].
  intros i Hi. rewrite E'. unfold gv at 2. destruct (Nat.eqb_spec i 32) as [->|].
  - rewrite app_nth2 by (rewrite vbits_length; lia). rewrite vbits_length. reflexivity.
  - rewrite app_nth1 by (rewrite vbits_length; lia). rewrite E by lia. symmetry. apply vbits_gv. lia.
Qed.
Lemma short32 : forall v, length v < 32 -> get32FromVec v = UB.
Proof.
  intros v L. unfold get32FromVec, gdigits. apply (GenBad.for_up_mid_ub _ (fun _ _ => True) _ 0 (length v) 32); auto; [lia|].
  intros x _. unfold vget. rewrite aget_ub by lia. reflexivity.
Qed.
Lemma applyMat8_eq : forall M x, gok 8 8 M -> applyMatToU8 M x = Ok (num 8 (fapp 8 (gat M) (bits 8 x))).
Proof.
  intros M x HM. apply wp_eq. unfold applyMatToU8. rewrite vec_N. cbn [bind]. apply wp_bind, (wp_gmulv 8 8); [exact HM|apply vbits_length|].
  intros m Lm Em. rewrite (getDigital_eq 8) by (auto; lia). cbn [bind]. apply wp_ok. change 256%N with (2 ^ N.of_nat 8)%N.
  rewrite (num_mod 8 8 (gv m)) by lia. apply num_ext. rewrite Em. apply fapp_proper; [reflexivity|apply vbits_gv].
Qed.
Lemma applyMat32_eq : forall M x, gok 32 32 M -> (x < 2 ^ 32)%N -> applyMatToU32 nt M x = Ok (num 32 (fapp 32 (gat M) (bits 32 x))).
Proof.
  intros M x HM Hx. apply wp_eq. unfold applyMatToU32. rewrite vec_long by (auto; lia). cbn [bind].
  apply wp_bind, (wp_gmulv 32 32); [exact HM|apply vbits_length|].
  intros m Lm Em. rewrite (getDigital_eq 32) by (auto; lia). apply wp_ok.
  apply num_ext. rewrite Em. apply fapp_proper; [reflexivity|apply vbits_gv].
Qed.
Lemma num_add : forall n v u x, (x < 2 ^ N.of_nat n)%N -> veq n (gv u) (vadd (gv v) (gv (vbits n x))) -> num n (gv u) = N.lxor (num n (gv v)) x.
Proof.
  intros n v u x Hx E. apply (bits_ext n); [apply num_lt|apply WBSM4M.lxor_lt; [apply num_lt|exact Hx]|].
  intros i Hi. rewrite bits_lxor, !bits_num by exact Hi. rewrite E by exact Hi. unfold vadd. rewrite vbits_gv by exact Hi. reflexivity.
Qed.
Lemma addVec8_eq : forall v x, length v = 8 -> (x < 256)%N -> addVecToU8 v x = Ok (N.lxor (num 8 (gv v)) x).
Proof.
  intros v x Lv Hx. apply wp_eq. unfold addVecToU8. rewrite vec_N. cbn [bind]. apply wp_bind, (wp_gaddv 8); [exact Lv|apply vbits_length|].
  intros u Lu Eu. rewrite (getDigital_eq 8) by (auto; lia). cbn [bind]. apply wp_ok. change 256%N with (2 ^ N.of_nat 8)%N.
  rewrite (num_mod 8 8 (gv u)) by lia. apply num_add; assumption.
Qed.
Lemma addVec32_eq : forall v x, length v = 32 -> (x < 2 ^ 32)%N -> addVecToU32 nt v x = Ok (N.lxor (num 32 (gv v)) x).
Proof.
  intros v x Lv Hx. apply wp_eq. unfold addVecToU32. rewrite vec_long by (auto; lia). cbn [bind].
  apply wp_bind, (wp_gaddv 32); [exact Lv|apply vbits_length|].
  intros u Lu Eu. rewrite (getDigital_eq 32) by (auto; lia). apply wp_ok. apply num_add; assumption.
Qed.
End Ntl.

(** ** An invertible matrix without rows of one 1, for every dimension from 3 on *)

Section Big.
Variable n : nat.
Hypothesis Hn : 3 <= n.
Definition bigA : fmat := fun i k =>
  if Nat.ltb i (n - 1) then xorb (Nat.eqb k i) (Nat.eqb k (S i)) else xorb (xorb (Nat.eqb k 0) (Nat.eqb k 1)) (Nat.eqb k 2).
Definition bigB : fmat := fun k j => xorb (xorb (Nat.eqb j (n - 1)) (Nat.eqb j 1)) (Nat.ltb j k).
Lemma xs1 : forall p (f : nat -> bool), p < n -> xsum n (fun k => Nat.eqb k p && f k) = f p.
Proof.
  intros p f Hp. rewrite (xsum_single n p); [rewrite Nat.eqb_refl; reflexivity|exact Hp|]. intros k _ Hk. destruct (Nat.eqb_spec k p); [lia|reflexivity].
Qed.
Lemma xs_split : forall (f g h : nat -> bool), xsum n (fun k => xorb (f k) (g k) && h k) = xorb (xsum n (fun k => f k && h k)) (xsum n (fun k => g k && h k)).
Proof. intros f g h. rewrite <- xsum_xorb. apply xsum_ext. intros k _. destruct (f k), (g k), (h k); reflexivity. Qed.
Lemma xs_tele : forall k j, k <= n - 1 -> xsum n (fun i => Nat.ltb i k && bigA i j) = xorb (Nat.eqb j 0) (Nat.eqb j k).
Proof.
  induction k as [|k IH]; intros j Hk.
  - rewrite xsum_false; [destruct (Nat.eqb j 0); reflexivity|]. intros i _. destruct (Nat.ltb_spec i 0); [lia|reflexivity].
  - rewrite (xsum_ext n _ (fun i => xorb (Nat.ltb i k) (Nat.eqb i k) && bigA i j)).
    2:{ intros i _. f_equal. destruct (Nat.ltb_spec i (S k)), (Nat.ltb_spec i k), (Nat.eqb_spec i k); try lia; reflexivity. }
    rewrite xs_split, IH, xs1 by lia. unfold bigA. destruct (Nat.ltb_spec k (n - 1)); [|lia].
    destruct (Nat.eqb j 0), (Nat.eqb j k), (Nat.eqb j (S k)); reflexivity.
Qed.
Lemma big_inverse : inverse_of n bigA bigB.
Proof.
  split; intros i j Hi Hj; unfold fmul, fid.
  - unfold bigA. destruct (Nat.ltb_spec i (n - 1)).
    + rewrite xs_split, !xs1 by lia. unfold bigB.
      destruct (Nat.eqb_spec j (n - 1)), (Nat.eqb_spec j 1), (Nat.ltb_spec j i), (Nat.ltb_spec j (S i)), (Nat.eqb_spec i j); try lia; reflexivity.
    + rewrite !xs_split, !xs1 by lia. unfold bigB.
      destruct (Nat.eqb_spec j (n - 1)), (Nat.eqb_spec j 1), (Nat.ltb_spec j 0), (Nat.ltb_spec j 1), (Nat.ltb_spec j 2), (Nat.eqb_spec i j); try lia; reflexivity.
  - unfold bigB. rewrite !xs_split, !xs1 by lia. rewrite xs_tele by lia. unfold bigA.
    destruct (Nat.ltb_spec (n - 1) (n - 1)); [lia|]. destruct (Nat.ltb_spec 1 (n - 1)); [|lia].
    rewrite (Nat.eqb_sym i j). destruct (Nat.eqb j 0), (Nat.eqb j 1), (Nat.eqb j 2), (Nat.eqb j i); reflexivity.
Qed.
Lemma two_ones : forall l p q, p < q -> nth p l false = true -> nth q l false = true -> ones l <> 1.
Proof.
  intros l p q Hpq Hp Hq. assert (Lq : q < length l). { destruct (Nat.lt_ge_cases q (length l)); [auto|]. rewrite nth_overflow in Hq by lia. discriminate. }
  destruct (nth_split l false (n := q) Lq) as (l1 & l2 & E & L1). rewrite E. unfold ones. rewrite count_occ_app. rewrite Hq. cbn [count_occ].
  destruct (bool_dec true true); [|congruence]. assert (In true l1).
  { rewrite E in Hp. rewrite app_nth1 in Hp by lia. rewrite <- Hp. apply nth_In. lia. }
  apply (count_occ_In bool_dec) in H. lia.
Qed.
Definition bigrnd (s : nat) : bool := bigA (s / n) (s mod n).
Definition bigrow (i : nat) : list bool := map (bigA i) (seq 0 n).
Lemma big_nth : forall i k, k < n -> nth k (bigrow i) false = bigA i k.
Proof. intros i k Hk. unfold bigrow. rewrite (nth_indep _ false (bigA i 0)) by (rewrite map_length, seq_length; exact Hk). rewrite map_nth, seq_nth by exact Hk. reflexivity. Qed.
Lemma big_block : forall i, block bigrnd n (i * n) = bigrow i.
Proof.
  intros i. unfold block, bigrow. apply (list_ext _ false); rewrite !map_length, !seq_length; [reflexivity|]. intros k Hk.
  rewrite (nth_indep _ false (bigrnd 0)) by (rewrite map_length, seq_length; exact Hk). rewrite map_nth, seq_nth by exact Hk.
  change (map (bigA i) (seq 0 n)) with (bigrow i). rewrite big_nth by exact Hk. unfold bigrnd.
  rewrite Nat.div_add_l by lia. rewrite (Nat.div_small k) by exact Hk. rewrite (Nat.add_comm (i * n) k), Nat.mod_add by lia. rewrite (Nat.mod_small k) by exact Hk.
  f_equal. lia.
Qed.
Lemma big_ones : forall i, i < n -> ones (bigrow i) <> 1.
Proof.
  intros i Hi. destruct (Nat.lt_ge_cases i (n - 1)).
  - apply (two_ones _ i (S i)); [lia| |]; rewrite big_nth by lia; unfold bigA; (destruct (Nat.ltb_spec i (n - 1)); [|lia]).
    + rewrite Nat.eqb_refl. destruct (Nat.eqb_spec i (S i)); [lia|reflexivity].
    + rewrite Nat.eqb_refl. destruct (Nat.eqb_spec (S i) i); [lia|reflexivity].
  - apply (two_ones _ 0 1); [lia| |]; rewrite big_nth by lia; unfold bigA; (destruct (Nat.ltb_spec i (n - 1)); [lia|reflexivity]).
Qed.
Lemma big_rows : forall m k, k + m = n -> rows_from bigrnd n m (k * n) (n * n) (map bigrow (seq k m)).
Proof.
  induction m as [|m IH]; intros k E.
  - replace k with n by lia. constructor.
  - cbn [seq map]. rewrite <- (big_block k). apply rows_take; [rewrite big_block; apply big_ones; lia|].
    replace (k * n + n) with (S k * n) by lia. apply IH. lia.
Qed.
Lemma big_from : inv_from bigrnd n 0 (n * n) (map bigrow (seq 0 n)).
Proof.
  apply inv_take; [apply (big_rows n 0); lia|]. apply (invertible_ext n bigA); [|exists bigB; apply big_inverse].
  intros i j Hi Hj. unfold gat. cbn [gdata]. rewrite (nth_indep _ [] (bigrow 0)) by (rewrite map_length, seq_length; exact Hi).
  rewrite map_nth, seq_nth by exact Hi. symmetry. apply big_nth. exact Hj.
Qed.
End Big.
Lemma found_dims : forall n, (exists rnd s s' l, inv_from rnd n s s' l) <-> n <> 1 /\ n <> 2.
Proof.
  intros n. split.
  - intros (rnd & s & s' & l & H). split; intros ->; [apply (no_dim1 _ _ _ _ H)|apply (no_dim2 _ _ _ _ H)].
  - intros [H1 H2]. destruct n as [|n].
    + exists (fun _ => false), 0, 0, []. apply inv_take; [constructor|]. exists fid. split; intros i j Hi; lia.
    + assert (HG : 3 <= S n) by lia. exists (bigrnd (S n)), 0, (S n * S n), (map (bigrow (S n)) (seq 0 (S n))). apply big_from. exact HG.
Qed.
