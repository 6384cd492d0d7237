(** The white-box tables of test/WBAES/NTL compute AES-128. *)
From Coq Require Import Arith NArith ZArith List Bool Lia Setoid Morphisms.
From Verif Require Import Base Spec LinAlg SpecGf2 Gf2a Gf2b ModelNtl SpecNtl Ntl1 Ntl2.
From Verif Require Cons WBSM4M.
From Verif Require Import Trans ModelSM4 SpecSM4 SM4 WBSM4 ModelAES SpecAES AES WBAES ModelAESN.
Import ListNotations.
Local Open Scope nat_scope.

(** ** Products of a matrix and a number *)

Definition nogm : gmat := gdims 0 0.
Definition mg (n : nat) (M : gmat) (x : N) : N := num n (fapp n (gat M) (bits n x)).
Lemma mg_lt : forall n M x, (mg n M x < 2 ^ N.of_nat n)%N.
Proof. intros. apply num_lt. Qed.
Lemma int2vec_eq : forall n x, n <= 32 -> int2vec x n = Ok (vbits n x).
Proof.
  intros n x Hn. apply Cons.wp_eq. unfold int2vec.
  apply wp_for_up with (I := fun i v => length v = n /\ forall k, k < n -> n - i <= k -> gv v k = bits n x k).
  - lia.
  - split; [apply repeat_length|]. intros; lia.
  - intros i v _ Hi [L H]. destruct (Nat.ltb_spec i 32); [|lia]. apply (wp_vput n); [exact L|lia|]. intros v' L' E'. split; [exact L'|].
    intros k Hk Hk'. rewrite E'. destruct (Nat.eqb_spec k (n - 1 - i)) as [->|]; [|apply H; lia].
    unfold bits. replace (n - 1 - (n - 1 - i)) with i by lia.
    rewrite <- N.bit0_mod, N.shiftr_spec', N.add_0_l. destruct (N.testbit x (N.of_nat i)); reflexivity.
  - intros v [L H]. apply vbits_of; [exact L|]. intros k Hk. apply H; lia.
Qed.
Lemma vec2int_eq : forall n v, length v = n -> n <= 32 -> vec2int v n = Ok (num n (gv v)).
Proof.
  intros n v L Hn. apply Cons.wp_eq. unfold vec2int.
  apply wp_for_up with (I := fun i o => o = num i (gv v)).
  - lia.
  - reflexivity.
  - intros i o _ Hi ->. cbv zeta. apply wp_bind, (wp_vget n); [exact L|exact Hi|]. apply wp_ok.
    assert (B := num_lt (S i) (gv v)). assert (P : (2 ^ N.of_nat (S i) <= 2 ^ 32)%N) by (apply N.pow_le_mono_r; lia).
    cbn [num] in *. rewrite (N.mul_comm _ 2). destruct (gv v i); cbn [N.b2n] in *; rewrite !N.mod_small; lia.
  - intros o ->. reflexivity.
Qed.
Lemma ax_mul_ok : forall n M x, gok n n M -> n <= 32 -> ax_mul n M x = Ok (mg n M x).
Proof.
  intros n M x HM Hn. apply Cons.wp_eq. unfold ax_mul. rewrite int2vec_eq by exact Hn. cbn [bind].
  apply wp_bind. apply (wp_gmulv n n); [exact HM|apply vbits_length|]. intros y Ly Ey. rewrite vec2int_eq by assumption. apply wp_ok.
  apply num_ext. rewrite Ey. apply fapp_proper; [reflexivity|]. apply vbits_gv.
Qed.
Lemma mg_lxor : forall n M x y, mg n M (N.lxor x y) = N.lxor (mg n M x) (mg n M y).
Proof.
  intros n M x y. apply (bits_ext n); [apply mg_lt|apply WBSM4M.lxor_lt; apply mg_lt|].
  unfold mg. rewrite bits_num. intros i Hi. rewrite bits_lxor. rewrite !bits_num by exact Hi.
  rewrite (fapp_proper n _ _ (reflexivity (gat M)) _ _ (WBSM4M.bits_lxor_v n x y) i Hi). rewrite (fapp_vadd n _ _ _ i Hi). reflexivity.
Qed.
Lemma mg_comp : forall n A B x, feq n (fmul n (gat B) (gat A)) fid -> (x < 2 ^ N.of_nat n)%N -> mg n B (mg n A x) = x.
Proof.
  intros n A B x HI Hx. apply (bits_ext n); [apply mg_lt|exact Hx|]. unfold mg at 1. rewrite bits_num. unfold mg.
  rewrite (fapp_proper n _ _ (reflexivity (gat B)) _ _ (bits_num n _)). rewrite <- fmul_fapp, HI, fapp_id. reflexivity.
Qed.
Definition pairN (n : nat) (A B : gmat) : Prop := gok n n A /\ gok n n B /\
  (forall x, (x < 2 ^ N.of_nat n)%N -> mg n B (mg n A x) = x) /\
  (forall x, (x < 2 ^ N.of_nat n)%N -> mg n A (mg n B x) = x).

Lemma dims2_rep : forall A (x : A) n m, dims2 n m (repeat (repeat x m) n).
Proof. intros. split; [apply repeat_length|]. intros. rewrite nth_rept by auto. apply repeat_length. Qed.
Lemma dims3_rep : forall A (x : A) n m l, dims3 n m l (repeat (repeat (repeat x l) m) n).
Proof. intros. split; [apply repeat_length|]. intros. rewrite nth_rept by auto. apply dims2_rep. Qed.

(** ** The random bijections *)

Lemma init_sound : forall nt fuel n s, ntl_ok nt ->
  wp (RandMat_init fuel nt n true s) (fun o => match o with
    | None => True
    | Some (A, B, s') => exists B', B = Some B' /\ pairN n A B' end).
Proof.
  intros nt fuel n s HN. unfold RandMat_init. rewrite init_loop_eq by (auto using gdims_ok). apply wp_bind.
  eapply wp_mono; [apply random_inv_sound; exact HN|]. intros [[A s']|]; [|intros _; apply wp_ok; exact I].
  intros (l & -> & Hl). destruct (inv_from_ok _ _ _ _ _ Hl) as [HG HI].
  apply wp_bind. apply (wp_ginv nt n); auto. intros B HB [I1 I2]. apply wp_ok. exists B. split; [reflexivity|].
  split; [exact HG|]. split; [exact HB|]. split; intros x Hx; apply mg_comp; assumption.
Qed.
Lemma init_some : forall nt n s, ntl_ok nt -> always (trand nt) n ->
  exists f0 A B s', pairN n A B /\ forall f, f0 <= f -> RandMat_init f nt n true s = Ok (Some (A, Some B, s')).
Proof.
  intros nt n s HN HA. destruct (HA s) as (s' & l & Hl). destruct (random_inv_complete nt HN n s s' l Hl) as [f0 E].
  destruct (inv_from_ok _ _ _ _ _ Hl) as [HG HI].
  destruct (wp_ex _ _ _ (wp_ginv nt n (mkgmat n n l) (fun B => gok n n B /\ inverse_of n (gat (mkgmat n n l)) (gat B)) HN HG HI
    (fun B H1 H2 => conj H1 H2))) as (B & EB & HB & I1 & I2).
  exists f0, (mkgmat n n l), B, s'. split.
  - split; [exact HG|]. split; [exact HB|]. split; intros x Hx; apply mg_comp; assumption.
  - intros f Hf. unfold RandMat_init. rewrite init_loop_eq by (auto using gdims_ok). rewrite E by assumption. cbn [bind]. rewrite EB. reflexivity.
Qed.

Definition gpairs (n m : nat) (D : nat -> nat -> Prop) (t : list (list (list gmat))) : Prop :=
  dims3 10 m 2 t /\ forall i k, D i k -> pairN n (at3 nogm t i k 0) (at3 nogm t i k 1).
Lemma gpairs_mono : forall n m (D D' : nat -> nat -> Prop) t, gpairs n m D t -> (forall i k, D' i k -> D i k) -> gpairs n m D' t.
Proof. intros n m D D' t [H1 H2] H. split; [exact H1|]. intros i k Hk. apply H2, H, Hk. Qed.
Definition okpairs (n m : nat) (D : nat -> nat -> Prop) (o : option (list (list (list gmat)) * nat)) : Prop :=
  match o with None => True | Some (mb, s) => gpairs n m D mb end.
Lemma ax_pair_wp : forall fuel nt n m i k (D : nat -> nat -> Prop) mb s, ntl_ok nt -> i < 10 -> k < m -> gpairs n m D mb ->
  wp (ax_pair fuel nt n i k (Some (mb, s))) (okpairs n m (fun i' k' => D i' k' \/ i' = i /\ k' = k)).
Proof.
  intros fuel nt n m i k D mb s HN Hi Hk [DM HP]. unfold ax_pair. apply wp_bind.
  eapply wp_mono; [apply init_sound; exact HN|]. intros [[[A B] s1]|]; [|intros _; apply wp_ok; exact I].
  intros (B' & -> & HAB).
  apply wp_bind. apply (wp_set3 _ nogm 10 m 2); auto; try lia. intros t1 D1 H1 _.
  apply wp_bind. apply (wp_set3 _ nogm 10 m 2); auto; try lia. intros t2 D2 H2 _.
  apply wp_ok. split; [exact D2|]. intros i' k' HD. rewrite !H2, !H1.
  destruct (Nat.eqb_spec i' i) as [->|], (Nat.eqb_spec k' k) as [->|]; cbn [andb Nat.eqb]; try exact HAB;
    apply HP; (destruct HD as [?|[? ?]]; [assumption|congruence]).
Qed.
Lemma ax_fill_wp : forall fuel nt n m i mb s, ntl_ok nt -> i < 10 -> gpairs n m (fun i' k' => i' < i /\ k' < m) mb ->
  wp (for_up 0 m (fun k st => ax_pair fuel nt n i k st) (Some (mb, s))) (okpairs n m (fun i' k' => i' < S i /\ k' < m)).
Proof.
  intros fuel nt n m i mb s HN Hi HP.
  apply wp_for_up with (I := fun k => okpairs n m (fun i' k' => i' < i /\ k' < m \/ i' = i /\ k' < k)).
  - lia.
  - eapply gpairs_mono; [exact HP|]. cbv beta. lia.
  - intros k [[mb1 s1]|] _ Hk H; [|apply wp_ok; exact I].
    eapply wp_mono; [apply (ax_pair_wp fuel nt n m i k (fun i' k' => i' < i /\ k' < m \/ i' = i /\ k' < k) mb1 s1); assumption|].
    intros [[mb2 s2]|] G; [|exact I]. eapply gpairs_mono; [exact G|]. cbv beta. lia.
  - intros [[mb1 s1]|] H; [|exact I]. eapply gpairs_mono; [exact H|]. cbv beta. lia.
Qed.
Lemma ax_bijections_wp : forall fuel nt mb32 mb8 s, ntl_ok nt -> dims3 10 4 2 mb32 -> dims3 10 16 2 mb8 ->
  wp (ax_bijections fuel nt mb32 mb8 s) (fun o => match o with
    | None => True
    | Some (a, b, s') => gpairs 32 4 (fun i k => i < 10 /\ k < 4) a /\ gpairs 8 16 (fun i k => i < 10 /\ k < 16) b end).
Proof.
  intros fuel nt mb32 mb8 s HN D32 D8. unfold ax_bijections.
  apply wp_for_up with (I := fun i o => match o with
    | None => True
    | Some (a, b, s') => gpairs 32 4 (fun i' k => i' < i /\ k < 4) a /\ gpairs 8 16 (fun i' k => i' < i /\ k < 16) b end).
  - lia.
  - split; (split; [assumption|intros i k [? ?]; lia]).
  - intros i [[[a b] s1]|] _ Hi H; [|apply wp_ok; exact I]. destruct H as (Ha & Hb). apply wp_bind.
    eapply wp_mono; [apply (ax_fill_wp fuel nt 32 4 i a s1); assumption|]. intros [[a' s2]|] G1; [|apply wp_ok; exact I].
    apply wp_bind. eapply wp_mono; [apply (ax_fill_wp fuel nt 8 16 i b s2); assumption|].
    intros [[b' s3]|] G2; [|apply wp_ok; exact I]. apply wp_ok. split; assumption.
  - auto.
Qed.

(** if invertible matrices are always found, some fuel is enough *)
Lemma ax_fill_some : forall nt n m i mb s, ntl_ok nt -> always (trand nt) n -> i < 10 -> dims3 10 m 2 mb ->
  exists f0 mb' s', dims3 10 m 2 mb' /\ forall f, f0 <= f -> for_up 0 m (fun k st => ax_pair f nt n i k st) (Some (mb, s)) = Ok (Some (mb', s')).
Proof.
  intros nt n m i mb s HN HA Hi DM.
  destruct (ev_for_up (list (list (list gmat)) * nat) (fun f k st => ax_pair f nt n i k st) (fun _ st => dims3 10 m 2 (fst st)) m 0 (mb, s))
    as (f0 & [mb' s'] & D' & E); [lia|exact DM| |exists f0, mb', s'; split; [exact D'|exact E]].
  intros k [mb1 s1] _ Hk D1. cbn [fst] in D1. destruct (init_some nt n s1 HN HA) as (f0 & A & B & s2 & _ & EI).
  destruct (wp_ex _ (mb2 <- set3 mb1 i k 0 A ;; mb3 <- set3 mb2 i k 1 B ;; Ok (Some (mb3, s2)))
    (fun o => exists mb3, o = Some (mb3, s2) /\ dims3 10 m 2 mb3)) as (o & EO & mb3 & -> & D3).
  { apply wp_bind. apply (wp_set3 _ nogm 10 m 2); auto; try lia. intros t1 D2 _ _.
    apply wp_bind. apply (wp_set3 _ nogm 10 m 2); auto; try lia. intros t2 D3 _ _. apply wp_ok. eauto. }
  exists f0, (mb3, s2). split; [exact D3|]. intros f Hf. unfold ax_pair. rewrite EI by exact Hf. cbn [bind]. exact EO.
Qed.
Lemma ax_bijections_some : forall nt mb32 mb8 s, ntl_ok nt -> dims3 10 4 2 mb32 -> dims3 10 16 2 mb8 ->
  always (trand nt) 8 -> always (trand nt) 32 ->
  exists f0 a b s', forall f, f0 <= f -> ax_bijections f nt mb32 mb8 s = Ok (Some (a, b, s')).
Proof.
  intros nt mb32 mb8 s HN D32 D8 H8 H32.
  destruct (ev_for_up (list (list (list gmat)) * list (list (list gmat)) * nat) (fun fuel i st =>
    match st with
    | None => Ok None
    | Some (mb32, mb8, s) =>
        o <- for_up 0 4 (fun k st => ax_pair fuel nt 32 i k st) (Some (mb32, s)) ;;
        match o with
        | None => Ok None
        | Some (mb32, s) =>
            o <- for_up 0 16 (fun k st => ax_pair fuel nt 8 i k st) (Some (mb8, s)) ;;
            match o with None => Ok None | Some (mb8, s) => Ok (Some (mb32, mb8, s)) end
        end
    end) (fun _ st => dims3 10 4 2 (fst (fst st)) /\ dims3 10 16 2 (snd (fst st))) 10 0 (mb32, mb8, s))
    as (f0 & [[a b] s'] & _ & E); [lia|split; assumption| |exists f0, a, b, s'; exact E].
  intros i [[a b] s1] _ Hi [Da Db]. cbn [fst snd] in Da, Db.
  destruct (ax_fill_some nt 32 4 i a s1 HN H32 Hi Da) as (f1 & a' & s2 & Da' & E1).
  destruct (ax_fill_some nt 8 16 i b s2 HN H8 Hi Db) as (f2 & b' & s3 & Db' & E2).
  exists (Nat.max f1 f2), (a', b', s3). split; [split; assumption|]. intros f Hf. rewrite E1 by lia. cbn [bind]. rewrite E2 by lia. reflexivity.
Qed.

(** ** The T-boxes *)

Record gtbinv (mb8 : list (list (list gmat))) (ek0 : list N) (MO : list (list (list N)))
  (X : list (list (list (list N)))) (D DM : nat -> nat -> nat -> Prop) (t : aestab) : Prop := mkgtb
  { ti_TB : dims3 10 16 256 (tTBoxes t); ti_TY : dims3 9 16 256 (tTyiBoxes t); ti_MI : dims3 10 16 256 (tMixIn t);
    ti_TT : tyi_ok (tTyiTables t); ti_MO : tMixOut t = MO; ti_X : tXor t = X;
    ti_tb : forall i j x, i < 10 -> j < 16 -> x < 256 -> D i j x -> at3 0%N (tTBoxes t) i j x = tb ek0 i j x;
    ti_ty : forall i j x, i < 9 -> j < 16 -> x < 256 -> D i j x -> at3 0%N (tTyiBoxes t) i j x = ty ek0 i j x;
    ti_mi : forall i j x, i < 10 -> j < 16 -> x < 256 -> DM i j x ->
      at3 0%N (tMixIn t) i j x = mg 8 (at3 nogm mb8 i j 0) (N.of_nat x) }.
Lemma gtbinv_mono : forall mb8 ek0 MO X (D DM D' DM' : nat -> nat -> nat -> Prop) t,
  gtbinv mb8 ek0 MO X D DM t ->
  (forall i j x, i < 10 -> j < 16 -> x < 256 -> D' i j x -> D i j x) ->
  (forall i j x, i < 10 -> j < 16 -> x < 256 -> DM' i j x -> DM i j x) -> gtbinv mb8 ek0 MO X D' DM' t.
Proof. intros mb8 ek0 MO X D DM D' DM' t [] H1 H2. split; auto. Qed.

Definition pairs8 mb8 := gpairs 8 16 (fun i k => i < 10 /\ k < 16) mb8.
Lemma pairs8_ok : forall mb8 i j k, pairs8 mb8 -> i < 10 -> j < 16 -> k < 2 -> gok 8 8 (at3 nogm mb8 i j k).
Proof.
  intros mb8 i j k [_ P] Hi Hj Hk. destruct (P i j (conj Hi Hj)) as (W0 & W1 & _). destruct k as [|[|k]]; auto; lia.
Qed.
Lemma mg8_lt : forall M x, (mg 8 M x < 256)%N.
Proof. intros. exact (mg_lt 8 M x). Qed.
Lemma mu8_ok : forall mb8 i j k x, pairs8 mb8 -> i < 10 -> j < 16 -> k < 2 ->
  (m <- get3 mb8 i j k ;; ax_mul 8 m x) = Ok (mg 8 (at3 nogm mb8 i j k) x).
Proof.
  intros mb8 i j k x Hp Hi Hj Hk. rewrite (get3_ok gmat nogm 10 16 2) by (auto; apply Hp). cbn [bind].
  apply ax_mul_ok; auto; try lia. apply pairs8_ok; auto.
Qed.
Lemma ax_tbox_wp : forall mb8 ek0 ek MO X i j x t, pairs8 mb8 -> bytes 176 ek0 -> shifted (S i) ek0 ek ->
  i < 10 -> j < 16 -> x < 256 ->
  gtbinv mb8 ek0 MO X (fun i' j' x' => i' < i \/ i' = i /\ (j' < j \/ j' = j /\ x' < x))
    (fun i' j' _ => i' < i \/ i' = i /\ j' <= j) t ->
  wp (ax_tbox_entry mb8 ek i j x t)
     (gtbinv mb8 ek0 MO X (fun i' j' x' => i' < i \/ i' = i /\ (j' < j \/ j' = j /\ x' < S x))
       (fun i' j' _ => i' < i \/ i' = i /\ j' <= j)).
Proof.
  intros mb8 ek0 ek MO X i j x t Hp He (Le & S1 & S2) Hi Hj Hx HT. pose proof (proj1 He) as L0. rewrite L0 in Le.
  destruct HT as [DTB DTY DMI TT EMO EX Htb Hty Hmi]. unfold ax_tbox_entry.
  match goal with |- wp (bind ?c ?f) _ => assert (E : bind c f = bind (Ok (if (0 <? i) && (i <? 9) then mg 8 (at3 nogm mb8 (i - 1) j 1) (N.of_nat x) else N.of_nat x)) f) end.
  { f_equal. destruct (Nat.ltb_spec 0 i), (Nat.ltb_spec i 9); cbn [andb]; auto. apply mu8_ok; auto; lia. }
  rewrite E. clear E. cbn [bind].
  match goal with |- wp (bind ?c _) _ => assert (E : c = Ok (N.of_nat x)) end.
  { destruct (Nat.ltb_spec 0 i), (Nat.ltb_spec i 9); cbn [andb]; auto.
    pose proof (mg8_lt (at3 nogm mb8 (i - 1) j 1) (N.of_nat x)) as B. rewrite (get3_ok N 0%N 10 16 256) by (auto; lia).
    rewrite Hmi by (auto; lia). rewrite N2Nat.id. apply f_equal.
    destruct Hp as [_ P]. destruct (P (i - 1) j ltac:(cbv beta; lia)) as (_ & _ & _ & I). apply I.
    change (2 ^ N.of_nat 8)%N with 256%N. lia. }
  rewrite E. clear E. cbn [bind]. rewrite (aget_ok _ ek _ 0%N) by lia. cbn [bind].
  replace (nth (16 * i + j) ek 0%N) with (sk ek0 i j).
  2:{ unfold sk. rewrite <- S1 by lia. apply rks_nth. auto. }
  assert (Bs : (sk ek0 i j < 256)%N) by (apply sk_bound; auto; lia).
  assert (Be : (ent ek0 i j x < 256)%N) by (apply ent_bound; auto; lia).
  rewrite aget_sbox by (apply xor_byte; auto; lia). cbn [bind].
  remember (ent ek0 i j x) as v eqn:Ev. unfold ent in Ev. rewrite <- Ev. rewrite (uchar_id _ Be).
  apply wp_bind. apply wp_set3 with (d := 0%N) (n := 10) (m := 16) (l := 256); auto. intros TB1 D1 H1 _.
  destruct (Nat.eqb_spec i 9) as [E9|E9].
  - rewrite (get3_ok N 0%N 10 16 256) by auto. cbn [bind].
    rewrite (aget_ok _ ek _ 0%N) by lia. cbn [bind].
    apply wp_bind. apply wp_set3 with (d := 0%N) (n := 10) (m := 16) (l := 256); auto. intros TB2 D2 H2 _.
    apply wp_ok. split; cbn [tTBoxes tTyiBoxes tMixIn tTyiTables tMixOut tXor]; auto.
    + intros i' j' x' Hi' Hj' Hx' HD. rewrite H2, !H1. rewrite !Nat.eqb_refl. cbn [andb].
      change 160 with (16 * 10). rewrite <- rks_nth by auto. rewrite S2 by lia.
      destruct (Nat.eqb_spec i' i) as [->|], (Nat.eqb_spec j' j) as [->|], (Nat.eqb_spec x' x) as [->|]; cbn [andb];
        try (apply Htb; auto; lia).
      unfold tb, ent. rewrite E9 in *. rewrite <- Ev. reflexivity.
    + intros i' j' x' Hi' Hj' Hx' HD. apply Hty; auto. lia.
  - assert (Bm := mod4 j). apply wp_bind. apply wp_get2 with (d := 0%N) (n := 4) (m := 256); [apply TT|auto|lia|].
    rewrite (proj2 TT) by (auto; lia). rewrite N2Nat.id.
    apply wp_bind. apply wp_set3 with (d := 0%N) (n := 9) (m := 16) (l := 256); auto; [lia|]. intros TY2 D2 H2 _.
    apply wp_ok. split; cbn [tTBoxes tTyiBoxes tMixIn tTyiTables tMixOut tXor]; auto.
    + intros i' j' x' Hi' Hj' Hx' HD. rewrite H1.
      destruct (Nat.eqb_spec i' i) as [->|], (Nat.eqb_spec j' j) as [->|], (Nat.eqb_spec x' x) as [->|]; cbn [andb];
        try (apply Htb; auto; lia).
      unfold tb, ent. destruct (Nat.eqb_spec i 9); [lia|]. auto.
    + intros i' j' x' Hi' Hj' Hx' HD. rewrite H2.
      destruct (Nat.eqb_spec i' i) as [->|], (Nat.eqb_spec j' j) as [->|], (Nat.eqb_spec x' x) as [->|]; cbn [andb];
        try (apply Hty; auto; lia). unfold ty, ent. rewrite <- Ev. reflexivity.
Qed.

Lemma ax_TBoxes_wp : forall mb8 ek0 MO X t, pairs8 mb8 -> bytes 176 ek0 ->
  gtbinv mb8 ek0 MO X (fun _ _ _ => False) (fun _ _ _ => False) t ->
  wp (ax_TBoxes mb8 ek0 t) (fun st => shifted 10 ek0 (fst st) /\
    gtbinv mb8 ek0 MO X (fun _ _ _ => True) (fun _ _ _ => True) (snd st)).
Proof.
  intros mb8 ek0 MO X t Hp He HT. unfold ax_TBoxes.
  apply wp_for_up with (I := fun i (st : list N * aestab) => shifted i ek0 (fst st) /\
    gtbinv mb8 ek0 MO X (fun i' _ _ => i' < i) (fun i' _ _ => i' < i) (snd st)); [lia| | |].
  - cbn [fst snd]. split; [split; [reflexivity|]; split; [intros; lia|auto]|].
    eapply gtbinv_mono; [exact HT| |]; cbv beta; intros; lia.
  - clear t HT. intros i [ek t] _ Hi [HS HT]. cbn [fst snd] in HS, HT. apply wp_bind.
    eapply wp_mono; [apply shift_next; [apply He|lia|exact HS]|]. clear ek HS. intros ek HS. apply wp_bind.
    apply wp_for_up with (I := fun j t =>
      gtbinv mb8 ek0 MO X (fun i' j' _ => i' < i \/ i' = i /\ j' < j) (fun i' j' _ => i' < i \/ i' = i /\ j' < j) t); [lia| | |].
    + eapply gtbinv_mono; [exact HT| |]; cbv beta; intros; lia.
    + clear t HT. intros j t _ Hj HT. apply wp_bind.
      apply wp_for_up with (I := fun x MI => dims3 10 16 256 MI /\
        forall i' j' x', i' < 10 -> j' < 16 -> x' < 256 -> (i' < i \/ i' = i /\ (j' < j \/ j' = j /\ x' < x)) ->
          at3 0%N MI i' j' x' = mg 8 (at3 nogm mb8 i' j' 0) (N.of_nat x')); [lia| | |].
      * split; [apply HT|]. intros. apply (ti_mi _ _ _ _ _ _ _ HT); auto. lia.
      * intros x MI _ Hx [DM HM]. rewrite <- bind_assoc. rewrite mu8_ok by auto. cbn [bind]. apply wp_set3 with (d := 0%N) (n := 10) (m := 16) (l := 256); auto. intros MI' D' H' _.
        split; auto. intros i' j' x' Hi' Hj' Hx' HD. rewrite H'.
        destruct (Nat.eqb_spec i' i) as [->|], (Nat.eqb_spec j' j) as [->|], (Nat.eqb_spec x' x) as [->|]; cbn [andb]; auto;
          apply HM; auto; lia.
      * intros MI [DM HM].
        apply wp_for_up with (I := fun x => gtbinv mb8 ek0 MO X (fun i' j' x' => i' < i \/ i' = i /\ (j' < j \/ j' = j /\ x' < x))
          (fun i' j' _ => i' < i \/ i' = i /\ j' <= j)); [lia| | |].
        -- destruct HT. split; cbn [tTBoxes tTyiBoxes tMixIn tTyiTables tMixOut tXor]; auto.
           ++ intros. apply ti_tb0; auto. lia.
           ++ intros. apply ti_ty0; auto. lia.
           ++ intros. apply HM; auto. lia.
        -- intros x t' _ Hx HT'. apply ax_tbox_wp; auto.
        -- intros t' HT'. eapply gtbinv_mono; [exact HT'| |]; cbv beta; intros; lia.
    + intros t' HT'. apply wp_ok. cbn [fst snd]. split; auto. eapply gtbinv_mono; [exact HT'| |]; cbv beta; intros; lia.
  - intros [ek t'] [HS HT']. split; auto. eapply gtbinv_mono; [exact HT'| |]; cbv beta; intros; lia.
Qed.

(** ** The mixing bijections *)

Lemma ax_reset_wp : forall mb8 i j MI, pairs8 mb8 -> i < 9 -> j < 4 -> dims3 10 16 256 MI ->
  wp (ax_reset mb8 i j MI) (fun MI' => dims3 10 16 256 MI' /\
    forall q x, q < 4 -> x < 256 -> at3 0%N MI' i (4 * j + q) x = N.of_nat x).
Proof.
  intros mb8 i j MI Hp Hi Hj HD. unfold ax_reset.
  apply wp_for_up with (I := fun x MI => dims3 10 16 256 MI /\
    forall q x', q < 4 -> x' < x -> at3 0%N MI i (4 * j + q) x' = N.of_nat x'); [lia| | |].
  - split; auto. intros; lia.
  - clear MI HD. intros x MI _ Hx [HD HM]. destruct (Nat.ltb_spec i 9); [|lia].
    apply wp_bind.
    apply wp_for_up with (I := fun _ MI => dims3 10 16 256 MI /\
      forall q x', q < 4 -> x' < x -> at3 0%N MI i (4 * j + q) x' = N.of_nat x'); [lia|auto| |].
    + clear MI HD HM. intros q MI _ Hq [HD HM]. rewrite <- bind_assoc. rewrite mu8_ok by (auto; lia). cbn [bind].
      apply wp_set3 with (d := 0%N) (n := 10) (m := 16) (l := 256); auto; try lia.
      intros MI' D' H' _. split; auto. intros q' x' Hq' Hx'. rewrite H'. destruct (Nat.eqb_spec x' x); [lia|].
      rewrite !andb_false_r. auto.
    + clear MI HD HM. intros MI [HD HM].
      apply wp_for_up with (I := fun q MI => dims3 10 16 256 MI /\
        forall q' x', q' < 4 -> (x' < x \/ x' = x /\ q' < q) -> at3 0%N MI i (4 * j + q') x' = N.of_nat x'); [lia| | |].
      * split; auto. intros q' x' Hq' [?|[? ?]]; [auto|lia].
      * clear MI HD HM. intros q MI _ Hq [HD HM].
        apply wp_set3 with (d := 0%N) (n := 10) (m := 16) (l := 256); auto; try lia.
        intros MI' D' H' _. split; auto. intros q' x' Hq' Hx'. rewrite H'.
        destruct (Nat.eqb_spec i i); [|lia].
        destruct (Nat.eqb_spec (4 * j + q') (4 * j + q)), (Nat.eqb_spec x' x) as [->|]; cbn [andb]; auto; apply HM; auto; lia.
      * intros MI' [D' H']. split; auto. intros q x' Hq Hx'. apply H'; auto. lia.
  - intros MI' [D' H']. split; auto.
Qed.

Definition mot (mb32 : list (list (list gmat))) (i j x : nat) : N :=
  mg 32 (at3 nogm mb32 i (j / 4) 1) (N.shiftl (N.of_nat x) (N.of_nat (24 - 8 * (j mod 4)))).
Definition tyt (mb32 : list (list (list gmat))) (ek : list N) (i j x : nat) : N :=
  mg 32 (at3 nogm mb32 i (j / 4) 0) (ty ek i j x).
Record gmixinv (mb32 : list (list (list gmat))) (ek : list N) (t0 : aestab)
  (D : nat -> nat -> nat -> Prop) (t : aestab) : Prop := mkgmix
  { mi_TB : tTBoxes t = tTBoxes t0; mi_TT : tTyiTables t = tTyiTables t0; mi_X : tXor t = tXor t0;
    mi_TY : dims3 9 16 256 (tTyiBoxes t); mi_MI : dims3 10 16 256 (tMixIn t); mi_MO : dims3 10 16 256 (tMixOut t);
    mi_done : forall i j x, i < 9 -> j < 16 -> x < 256 -> D i j x ->
      at3 0%N (tTyiBoxes t) i j x = tyt mb32 ek i j x /\ at3 0%N (tMixOut t) i j x = mot mb32 i j x;
    mi_todo : forall i j x, i < 9 -> j < 16 -> x < 256 -> ~ D i j x -> at3 0%N (tTyiBoxes t) i j x = ty ek i j x }.
Lemma gmixinv_mono : forall mb32 ek t0 (D D' : nat -> nat -> nat -> Prop) t, gmixinv mb32 ek t0 D t ->
  (forall i j x, i < 9 -> j < 16 -> x < 256 -> (D' i j x <-> D i j x)) -> gmixinv mb32 ek t0 D' t.
Proof.
  intros mb32 ek t0 D D' t [] H. split; auto.
  - intros. apply mi_done0; auto. apply H; auto.
  - intros i j x Hi Hj Hx HD. apply mi_todo0; auto. intros ?. apply HD. apply H; auto.
Qed.

Definition pairs32 mb32 := gpairs 32 4 (fun i k => i < 10 /\ k < 4) mb32.
Lemma pairs32_ok : forall mb32 i j k, pairs32 mb32 -> i < 10 -> j < 4 -> k < 2 -> gok 32 32 (at3 nogm mb32 i j k).
Proof.
  intros mb32 i j k [_ P] Hi Hj Hk. destruct (P i j (conj Hi Hj)) as (W0 & W1 & _). destruct k as [|[|k]]; auto; lia.
Qed.
Lemma ax_tables_wp : forall mb32 ek t0 i j t, pairs32 mb32 -> bytes 176 ek -> i < 9 -> j < 4 ->
  id_at (tMixIn t) i j ->
  gmixinv mb32 ek t0 (fun i' j' _ => i' < i \/ i' = i /\ j' / 4 < j) t ->
  wp (ax_tables mb32 i j t) (gmixinv mb32 ek t0 (fun i' j' _ => i' < i \/ i' = i /\ j' / 4 < S j)).
Proof.
  intros mb32 ek t0 i j t Hp He Hi Hj HI HT. unfold ax_tables.
  apply wp_for_up with (I := fun x t => id_at (tMixIn t) i j /\
    gmixinv mb32 ek t0 (fun i' j' x' => i' < i \/ i' = i /\ (j' / 4 < j \/ j' / 4 = j /\ x' < x)) t); [lia| | |].
  - split; auto. eapply gmixinv_mono; [exact HT|]. cbv beta. intros; lia.
  - clear t HI HT. intros x t _ Hx [HI HT]. destruct (Nat.ltb_spec i 9); [|lia].
    pose proof Hp as [DM _]. rewrite !(get3_ok gmat nogm 10 4 2) by (auto; lia). cbn [bind].
    destruct HT as [ETB ETT EX DTY DMI DMO Hd Hn].
    apply wp_bind. apply wp_for_up with (I := fun q TY => dims3 9 16 256 TY /\
      forall i' j' x', at3 0%N TY i' j' x' =
        if (Nat.eqb i' i && (Nat.eqb (j' / 4) j && Nat.ltb (j' mod 4) q && Nat.eqb x' x))%bool
        then tyt mb32 ek i' j' x' else at3 0%N (tTyiBoxes t) i' j' x'); [lia| | |].
    { split; auto. intros. change (Nat.ltb (j' mod 4) 0) with false. rewrite !andb_false_r. cbn [andb]. rewrite ?andb_false_r. reflexivity. }
    { intros q TY _ Hq [D H0]. apply wp_bind. apply wp_get3 with (d := 0%N) (n := 9) (m := 16) (l := 256); auto; [lia|].
      destruct (col_mod j q Hq) as [Cm Cd].
      rewrite Hn by (auto; lia).
      rewrite ax_mul_ok by (auto; try lia; apply pairs32_ok; auto; lia). cbn [bind].
      apply wp_set3 with (d := 0%N) (n := 9) (m := 16) (l := 256); auto; [lia|]. intros TY' D' H' _. split; auto.
      intros i' j' x'. rewrite H', H0.
      pose proof (Nat.div_mod j' 4 ltac:(lia)) as DJ. pose proof (mod4 j') as MJ.
      destruct (Nat.eqb_spec i' i) as [->|]; cbn [andb]; auto.
      destruct (Nat.eqb_spec x' x) as [->|]; rewrite ?andb_true_r, ?andb_false_r; auto.
      destruct (Nat.eqb_spec j' (4 * j + q)) as [->|Hne].
      - rewrite Cm, Cd, Nat.eqb_refl. destruct (Nat.ltb_spec q (S q)); [|lia]. cbn [andb].
        unfold tyt. rewrite Cd. reflexivity.
      - destruct (Nat.eqb_spec (j' / 4) j); cbn [andb]; auto.
        destruct (Nat.ltb_spec (j' mod 4) q), (Nat.ltb_spec (j' mod 4) (S q)); auto; lia. }
    intros TY [D1 H1]. apply wp_bind. apply wp_for_up with (I := fun q MO => dims3 10 16 256 MO /\
      forall i' j' x', at3 0%N MO i' j' x' =
        if (Nat.eqb i' i && (Nat.eqb (j' / 4) j && Nat.ltb (j' mod 4) q && Nat.eqb x' x))%bool
        then mot mb32 i' j' x' else at3 0%N (tMixOut t) i' j' x'); [lia| | |].
    { split; auto. intros. change (Nat.ltb (j' mod 4) 0) with false. rewrite !andb_false_r. cbn [andb]. rewrite ?andb_false_r. reflexivity. }
    { intros q MO _ Hq [D H0]. destruct (col_mod j q Hq) as [Cm Cd].
      rewrite ax_mul_ok by (auto; try lia; apply pairs32_ok; auto; lia). cbn [bind].
      rewrite mix_word_ok by (auto; apply (mg_lt 32)). cbn [bind].
      apply wp_set3 with (d := 0%N) (n := 10) (m := 16) (l := 256); auto; try lia. intros MO' D' H' _. split; auto.
      intros i' j' x'. rewrite H', H0.
      pose proof (Nat.div_mod j' 4 ltac:(lia)) as DJ. pose proof (mod4 j') as MJ.
      destruct (Nat.eqb_spec i' i) as [->|]; cbn [andb]; auto.
      destruct (Nat.eqb_spec x' x) as [->|]; rewrite ?andb_true_r, ?andb_false_r; auto.
      destruct (Nat.eqb_spec j' (4 * j + q)) as [->|Hne].
      - rewrite Cm, Cd, Nat.eqb_refl. destruct (Nat.ltb_spec q (S q)); [|lia]. cbn [andb].
        unfold mot. rewrite Cd, Cm. reflexivity.
      - destruct (Nat.eqb_spec (j' / 4) j); cbn [andb]; auto.
        destruct (Nat.ltb_spec (j' mod 4) q), (Nat.ltb_spec (j' mod 4) (S q)); auto; lia. }
    intros MO [D2 H2]. apply wp_ok. split; [exact HI|].
    split; cbn [tTBoxes tTyiBoxes tMixIn tTyiTables tMixOut tXor]; auto.
    + intros i' j' x' Hi' Hj' Hx' HD. rewrite H1, H2. pose proof (mod4 j') as MJ.
      destruct (Nat.ltb_spec (j' mod 4) 4); [|lia]. rewrite andb_true_r.
      destruct (Nat.eqb_spec i' i) as [->|], (Nat.eqb_spec (j' / 4) j), (Nat.eqb_spec x' x) as [->|]; cbn [andb]; auto; apply Hd; auto; lia.
    + intros i' j' x' Hi' Hj' Hx' HD. rewrite H1.
      destruct (Nat.eqb_spec i' i) as [->|], (Nat.eqb_spec (j' / 4) j), (Nat.eqb_spec x' x) as [->|]; cbn [andb];
        rewrite ?andb_false_r; auto; try (apply Hn; auto; lia).
      exfalso. apply HD. lia.
  - intros t' [_ HT']. eapply gmixinv_mono; [exact HT'|]. cbv beta. intros; lia.
Qed.

Lemma ax_reset_9 : forall mb8 i j MI, 9 <= i -> ax_reset mb8 i j MI = Ok MI.
Proof.
  intros mb8 i j MI Hi. unfold ax_reset. apply Cons.wp_eq.
  apply wp_for_up with (I := fun _ M => M = MI); [lia|auto| |auto].
  intros x M _ _ ->. destruct (Nat.ltb_spec i 9); [lia|]. reflexivity.
Qed.
Lemma ax_tables_9 : forall mb32 i j t, 9 <= i -> ax_tables mb32 i j t = Ok t.
Proof.
  intros mb32 i j t Hi. unfold ax_tables. apply Cons.wp_eq.
  apply wp_for_up with (I := fun _ M => M = t); [lia|auto| |auto].
  intros x M _ _ ->. destruct (Nat.ltb_spec i 9); [lia|]. reflexivity.
Qed.

Lemma ax_mix_wp : forall mb32 mb8 ek t0, pairs32 mb32 -> pairs8 mb8 -> bytes 176 ek ->
  gmixinv mb32 ek t0 (fun _ _ _ => False) t0 ->
  wp (ax_mix mb32 mb8 t0) (gmixinv mb32 ek t0 (fun _ _ _ => True)).
Proof.
  intros mb32 mb8 ek t0 Hp32 Hp8 He HT0. unfold ax_mix.
  apply wp_for_up with (I := fun i t => gmixinv mb32 ek t0 (fun i' _ _ => i' < i) t); [lia| | |].
  - eapply gmixinv_mono; [exact HT0|]. cbv beta. intros; lia.
  - intros i t _ Hi HT.
    apply wp_for_up with (I := fun j t => gmixinv mb32 ek t0 (fun i' j' _ => i' < i \/ i' = i /\ j' / 4 < j) t); [lia| | |].
    + eapply gmixinv_mono; [exact HT|]. cbv beta. intros; lia.
    + clear t HT. intros j t _ Hj HT. destruct (Nat.lt_ge_cases i 9) as [H9|H9].
      * apply wp_bind. eapply wp_mono; [apply ax_reset_wp; eauto; apply HT|]. intros MI HI.
        apply ax_tables_wp; auto. destruct HT. split; cbn [tTBoxes tTyiBoxes tMixIn tTyiTables tMixOut tXor]; auto. apply HI.
      * rewrite ax_reset_9 by auto. cbn [bind]. rewrite ax_tables_9 by auto. apply wp_ok.
        assert (E : mkaes (tTBoxes t) (tTyiTables t) (tTyiBoxes t) (tMixIn t) (tMixOut t) (tXor t) = t) by (destruct t; reflexivity).
        rewrite E. eapply gmixinv_mono; [exact HT|]. cbv beta. intros i' j' x' Hi' Hj' Hx'. split; intros; lia.
    + intros t' HT'. eapply gmixinv_mono; [exact HT'|]. cbv beta. intros i' j' x' Hi' Hj' Hx'.
      assert (j' / 4 < 4) by (apply Nat.div_lt_upper_bound; lia). lia.
  - intros t' HT'. eapply gmixinv_mono; [exact HT'|]. cbv beta. intros; lia.
Qed.

(** ** ax_computeTables *)

Definition gtab_for (ek : list N) (t : aestab) : Prop :=
  tab_typed t /\ tyi_ok (tTyiTables t) /\ xor_ok (tXor t) /\
  (forall i j x, i < 10 -> j < 16 -> x < 256 -> at3 0%N (tTBoxes t) i j x = tb ek i j x) /\
  exists mb32, pairs32 mb32 /\
    forall i j x, i < 9 -> j < 16 -> x < 256 ->
      at3 0%N (tTyiBoxes t) i j x = tyt mb32 ek i j x /\ at3 0%N (tMixOut t) i j x = mot mb32 i j x.

Lemma ax_rest_wp : forall ek t TT mb32 mb8 (s : nat), bytes 176 ek -> tab_typed t -> tyi_ok TT -> pairs32 mb32 -> pairs8 mb8 ->
  wp (' (ek, t) <- ax_TBoxes mb8 ek (mkaes (tTBoxes t) TT (tTyiBoxes t) (tMixIn t) (tMixOut t) (tXor t)) ;;
      t <- ax_mix mb32 mb8 t ;;
      X <- gen_xorTable (tXor t) ;;
      Ok (Some (ek, mkaes (tTBoxes t) (tTyiTables t) (tTyiBoxes t) (tMixIn t) (tMixOut t) X, s)))
     (fun o => exists ek' t', o = Some (ek', t', s) /\ shifted 10 ek ek' /\ gtab_for ek t').
Proof.
  intros ek t TT mb32 mb8 s He (DTB & DTT & DTY & DMI & DMO & DX) HTT P32 P8.
  apply wp_bind. eapply wp_mono.
  { apply (ax_TBoxes_wp mb8 ek (tMixOut t) (tXor t)); [exact P8|auto|].
    split; cbn [tTBoxes tTyiBoxes tMixIn tTyiTables tMixOut tXor]; auto; intros; contradiction. }
  intros [ek' t1] [HS HT]. cbn [fst snd] in HS, HT. apply wp_bind.
  eapply wp_mono.
  { apply (ax_mix_wp mb32 mb8 ek t1); [exact P32|exact P8|auto|].
    destruct HT as [TB TY MI TT1 EMO EX Htb Hty Hmi]. split; auto.
    - rewrite EMO. auto.
    - intros; contradiction. }
  intros t2 HM. apply wp_bind. eapply wp_mono.
  { apply gen_xorTable_wp. rewrite (mi_X _ _ _ _ _ HM), (ti_X _ _ _ _ _ _ _ HT). auto. }
  intros X HX. apply wp_ok. exists ek'. eexists. split; [reflexivity|]. split; auto.
  destruct HM as [ETB ETT EX MTY MMI MMO Hd _]. destruct HT as [TB TY MI TT1 EMO EX1 Htb Hty Hmi].
  unfold gtab_for, tab_typed. cbn [tTBoxes tTyiBoxes tMixIn tTyiTables tMixOut tXor]. rewrite ETB, ETT.
  split; [refine (conj TB (conj (proj1 TT1) (conj MTY (conj MMI (conj MMO (proj1 HX))))))|].
  split; [exact TT1|]. split; [exact HX|]. split; [auto|].
  exists mb32. split; [exact P32|]. auto.
Qed.
Lemma ax_compute_wp : forall fuel nt ek t s, ntl_ok nt -> bytes 176 ek -> tab_typed t ->
  wp (ax_computeTables fuel nt ek t s) (fun o =>
    forall ek' t' s', o = Some (ek', t', s') -> shifted 10 ek ek' /\ gtab_for ek t').
Proof.
  intros fuel nt ek t s HN He Ht. unfold ax_computeTables. apply wp_bind.
  eapply wp_mono; [apply gen_TyiTables_wp; apply Ht|]. intros TT HTT. apply wp_bind.
  eapply wp_mono; [apply ax_bijections_wp; [exact HN|apply dims3_rep|apply dims3_rep]|]. intros [[[mb32 mb8] s1]|] HB; [|apply wp_ok; discriminate].
  destruct HB as (P32 & P8). eapply wp_mono; [apply (ax_rest_wp ek t TT mb32 mb8 s1); assumption|].
  intros o (ek1 & t1 & -> & H1 & H2) ek' t' s' E. injection E as <- <- <-. auto.
Qed.
Lemma ax_compute_some : forall nt ek t s, ntl_ok nt -> bytes 176 ek -> tab_typed t -> always (trand nt) 8 -> always (trand nt) 32 ->
  exists f0 ek' t' s', forall f, f0 <= f -> ax_computeTables f nt ek t s = Ok (Some (ek', t', s')).
Proof.
  intros nt ek t s HN He Ht H8 H32.
  destruct (wp_ex _ _ _ (gen_TyiTables_wp (tTyiTables t) (proj1 (proj2 Ht)))) as (TT & ET & HTT).
  destruct (ax_bijections_some nt (repeat (repeat (repeat (gdims 0 0) 2) 4) 10) (repeat (repeat (repeat (gdims 0 0) 2) 16) 10) s HN
    (dims3_rep _ _ _ _ _) (dims3_rep _ _ _ _ _) H8 H32) as (f0 & mb32 & mb8 & s1 & EB).
  pose proof (ax_bijections_wp f0 nt _ _ s HN (dims3_rep _ (gdims 0 0) 10 4 2) (dims3_rep _ (gdims 0 0) 10 16 2)) as W.
  rewrite EB in W by lia. destruct W as [P32 P8].
  destruct (wp_ex _ _ _ (ax_rest_wp ek t TT mb32 mb8 s1 He Ht HTT P32 P8)) as (o & EO & ek' & t' & -> & _).
  exists f0, ek', t', s1. intros f Hf. unfold ax_computeTables. rewrite ET. cbn [bind]. rewrite EB by exact Hf. cbn [bind]. exact EO.
Qed.

(** ** Encryption by tables *)

Lemma mg_lxor4 : forall n M a b c d,
  N.lxor (N.lxor (N.lxor (mg n M a) (mg n M b)) (mg n M c)) (mg n M d) = mg n M (N.lxor (N.lxor (N.lxor a b) c) d).
Proof. intros. rewrite !mg_lxor. reflexivity. Qed.

Lemma ax_round_wp : forall ek t i s, gtab_for ek t -> bytes 176 ek -> i < 9 -> bytes 16 s ->
  table_round t i s = Ok (MixColumns (SubBytes (AddRoundKey (ShiftRows s) (ShiftRows (rks ek i))))).
Proof.
  intros ek t i s0 HT He Hi Hs0. unfold table_round. rewrite shiftRows_ok by apply Hs0. cbn [bind].
  pose proof (ShiftRows_bytes _ Hs0) as Hs. remember (ShiftRows s0) as s eqn:Es. clear s0 Hs0 Es.
  set (Y := SubBytes (AddRoundKey s (ShiftRows (rks ek i)))).
  assert (BK : bytes 16 (ShiftRows (rks ek i))) by (apply ShiftRows_bytes, rks_bytes; auto; lia).
  assert (BY : bytes 16 Y) by (apply SubBytes_bytes, AddRoundKey_bytes; auto).
  assert (EY : forall k, k < 16 -> nth k Y 0%N = aes_sbox (N.lxor (nth k s 0%N) (sk ek i k))).
  { intros k Hk. unfold Y, SubBytes, AddRoundKey. assert (Dk : k / 4 < 4) by (apply Nat.div_lt_upper_bound; lia).
    rewrite nth_state, elt_state, !elt_mod by auto using mod4. reflexivity. }
  clearbody Y.
  destruct HT as ((DTB & DTT & DTY & DMI & DMO & DX) & _ & HX & _ & mb32 & Hp & HM).
  apply Cons.wp_eq.
  apply wp_for_up with (I := fun j s' => length s' = 16 /\ forall k, k < 16 ->
    nth k s' 0%N = if Nat.ltb (k / 4) j then nth k (MixColumns Y) 0%N else nth k s 0%N); [lia| | |].
  - split; [apply Hs|]. auto.
  - intros j s' _ Hj [L H]. cbv zeta.
    assert (CM : forall q, q < 4 -> (4 * j + q) mod 4 = q /\ (4 * j + q) / 4 = j) by (intros; apply col_mod; auto).
    assert (A : forall q, q < 4 -> (x <- aget s' (4 * j + q);; get3 (tTyiBoxes t) i (4 * j + q) (N.to_nat x))
      = Ok (mg 32 (at3 nogm mb32 i j 0) (tyi q (nth (4 * j + q) Y 0%N)))).
    { intros q Hq. destruct (CM q Hq) as [Cm Cd].
      rewrite (aget_ok _ s' _ 0%N) by lia. cbn [bind]. rewrite H by lia. rewrite Cd.
      destruct (Nat.ltb_spec j j); [lia|]. assert (B : (nth (4 * j + q) s 0 < 256)%N) by (apply nth_byte, Hs).
      rewrite (get3_ok N 0%N 9 16 256) by (auto; lia).
      destruct (HM i (4 * j + q) (N.to_nat (nth (4 * j + q) s 0%N))) as [-> _]; try lia.
      unfold tyt, ty, ent. rewrite Cm, Cd, N2Nat.id, EY by lia. reflexivity. }
    rewrite !A by lia. cbn [bind]. clear A.
    destruct Hp as [Mp Pp]. destruct (Pp i j ltac:(cbv beta; lia)) as (W0 & W1 & I01 & _).
    apply wp_bind. eapply wp_mono; [apply xor_nibbles_wp; auto|]. intros s1 [L1 H1].
    rewrite mg_lxor4 in H1.
    assert (BYk : forall k, (nth k Y 0 < 256)%N) by (intros; apply nth_byte, BY).
    remember (N.lxor (N.lxor (N.lxor (tyi 0 (nth (4 * j + 0) Y 0%N)) (tyi 1 (nth (4 * j + 1) Y 0%N)))
      (tyi 2 (nth (4 * j + 2) Y 0%N))) (tyi 3 (nth (4 * j + 3) Y 0%N))) as V eqn:EV.
    assert (BV : (V < 2 ^ 32)%N). { rewrite EV. repeat apply (WBSM4M.lxor_lt 32); apply tyi_bound; auto. }
    pose proof (wbyte_tyi _ _ _ _ (BYk (4 * j + 0)) (BYk (4 * j + 1)) (BYk (4 * j + 2)) (BYk (4 * j + 3))) as WV.
    cbv zeta in WV. rewrite <- EV in WV. clear EV.
    pose proof (mg_lt 32 (at3 nogm mb32 i j 0) V) as BW. specialize (I01 V BV).
    remember (mg 32 (at3 nogm mb32 i j 0) V) as W eqn:EW. clear EW. change (2 ^ N.of_nat 32)%N with (2 ^ 32)%N in *.
    assert (A : forall q, q < 4 -> (x <- aget s1 (4 * j + q);; get3 (tMixOut t) i (4 * j + q) (N.to_nat x))
      = Ok (mg 32 (at3 nogm mb32 i j 1) (N.shiftl (wbyte W q) (N.of_nat (24 - 8 * q))))).
    { intros q Hq. destruct (CM q Hq) as [Cm Cd].
      rewrite (aget_ok _ s1 _ 0%N) by lia. cbn [bind]. rewrite H1 by lia. rewrite Cd, Cm, Nat.eqb_refl.
      assert (B : (wbyte W q < 256)%N) by apply byte_bound.
      rewrite (get3_ok N 0%N 10 16 256) by (auto; lia).
      destruct (HM i (4 * j + q) (N.to_nat (wbyte W q))) as [_ ->]; try lia.
      unfold mot. rewrite Cm, Cd, N2Nat.id. reflexivity. }
    rewrite !A by lia. cbn [bind]. clear A.
    eapply wp_mono; [apply xor_nibbles_wp; auto|]. intros s2 [L2 H2]. split; auto.
    rewrite mg_lxor4 in H2.
    match type of H2 with context [mg 32 _ ?a] => assert (E : a = W) end.
    { unfold wbyte. change (24 - 8 * 0) with 24. change (24 - 8 * 1) with 16. change (24 - 8 * 2) with 8. change (24 - 8 * 3) with 0.
      change (3 - 0) with 3. change (3 - 1) with 2. change (3 - 2) with 1. change (3 - 3) with 0.
      change (N.of_nat 24) with 24%N. change (N.of_nat 16) with 16%N. change (N.of_nat 8) with 8%N. change (N.of_nat 3) with 3%N.
      change (N.of_nat 2) with 2%N. change (N.of_nat 1) with 1%N. change (N.of_nat 0) with 0%N.
      rewrite N.shiftl_0_r. rewrite word_lxor by apply byte_bound. apply word_bytes. auto. }
    rewrite E, I01 in H2. clear E. intros k Hk. rewrite H2, H1, H by auto.
    pose proof (Nat.div_mod k 4 ltac:(lia)) as DK. pose proof (mod4 k) as MK.
    destruct (Nat.eqb_spec (k / 4) j) as [E|E].
    + destruct (Nat.ltb_spec (k / 4) (S j)); [|lia]. unfold MixColumns. rewrite nth_state by auto. rewrite E.
      destruct WV as (V0 & V1 & V2 & V3). unfold elt. revert MK. generalize (k mod 4). intros r Hr.
      rewrite !(Nat.add_comm _ (4 * j)).
      do 4 (destruct r as [|r]; [assumption|]). lia.
    + destruct (Nat.ltb_spec (k / 4) j), (Nat.ltb_spec (k / 4) (S j)); auto; lia.
  - intros s' [L H]. apply list_ext with (d := 0%N); [rewrite L; symmetry; apply length_state|].
    intros k Hk. rewrite L in Hk. rewrite H by auto.
    assert (k / 4 < 4) by (apply Nat.div_lt_upper_bound; lia). destruct (Nat.ltb_spec (k / 4) 4); [auto|lia].
Qed.

Lemma ax_encrypt_wp : forall ek t x o, gtab_for ek t -> bytes 176 ek -> bytes 16 x -> 16 <= length o ->
  wp (aes_128_table_encrypt t x o) (fun '(x', o') =>
    x' = aes_cipher (rks ek) x /\ written o o' 0 (aes_cipher (rks ek) x)).
Proof.
  intros ek t x o HT He Hx Ho. unfold aes_128_table_encrypt. apply wp_bind.
  apply wp_for_up with (I := fun i y => y = Pst (rks ek) i x); [lia|reflexivity| |].
  - intros i y _ Hi ->. rewrite (ax_round_wp ek) by (auto; apply Pst_bytes; auto; intros; apply rks_bytes; auto; lia).
    reflexivity.
  - intros y Hy. assert (BP : bytes 16 y). { rewrite Hy. apply Pst_bytes; auto. intros. apply rks_bytes; auto; lia. }
    rewrite shiftRows_ok by apply BP. cbn [bind].
    pose proof (ShiftRows_bytes _ BP) as Bs. remember (ShiftRows y) as s eqn:Es.
    rewrite (fill16 (fun k => tb ek 9 k (N.to_nat (nth k s 0%N))) _ s
      (fun r c => N.lxor (elt (SubBytes (AddRoundKey s (ShiftRows (rks ek 9)))) r c) (elt (rks ek 10) r c))).
    + cbn [bind]. apply wp_bind. change (state _) with (AddRoundKey (SubBytes (AddRoundKey s (ShiftRows (rks ek 9)))) (rks ek 10)).
      rewrite Es, Hy. rewrite <- aes_cipher_P.
      assert (LC : length (aes_cipher (rks ek) x) = 16) by apply length_state.
      eapply wp_mono; [apply copy_wp; [rewrite LC; apply Nat.le_refl|exact Ho]|]. intros o' W.
      rewrite firstn_all2 in W by lia. apply wp_ok. split; [reflexivity|]. exact W.
    + apply Bs.
    + intros k cur Hk Lc H _. rewrite (proj1 Bs) in Lc. rewrite (aget_ok _ cur _ 0%N) by lia. cbn [bind]. rewrite H by lia.
      assert (B : (nth k s 0 < 256)%N) by (apply nth_byte, Bs).
      destruct HT as ((DTB & _) & _ & _ & HTB & _).
      rewrite (get3_ok N 0%N 10 16 256) by (auto; lia). rewrite HTB by lia. cbn [bind]. apply wp_aset; [lia|]. reflexivity.
    + intros k Hk. unfold tb, ent. cbn [Nat.eqb]. rewrite N2Nat.id.
      assert (Dk : k / 4 < 4) by (apply Nat.div_lt_upper_bound; lia).
      unfold SubBytes, AddRoundKey. rewrite !elt_state, !elt_mod by auto using mod4. reflexivity.
Qed.
