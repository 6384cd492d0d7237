(** test/LowMCMethod_text.cpp: the random matrices and the rejection loop. *)
From Coq Require Import Arith NArith List Bool Lia.
From Verif Require Import Base Tables Model Spec LinAlg Mem Cons Elim Check RowProd ModelLowMC SpecLowMC LowMC.
Import ListNotations.

(** ** Consecutive calls *)

Definition cbit (st : N) (n : nat) : bool := match nth_call n st with Ok (b, _) => b | UB => false end.
Definition cst (st : N) (n : nat) : N :=
  match n with O => st | S n' => match nth_call n' st with Ok (_, s) => s | UB => 0%N end end.

Lemma nth_call_S : forall n st, nth_call (S n) st = bind (nth_call n st) (fun r => randbit (snd r)).
Proof.
  induction n as [|n IH]; intros st; [reflexivity|].
  change (nth_call (S (S n)) st) with (bind (randbit st) (fun r => nth_call (S n) (snd r))).
  change (nth_call (S n) st) with (bind (randbit st) (fun r => nth_call n (snd r))).
  destruct (randbit st) as [[b s]|]; [|reflexivity]. cbn [bind snd]. apply IH.
Qed.
Lemma nth_call_total : forall n st, st80 st ->
  exists b s, nth_call n st = Ok (b, s) /\ st80 s /\ s <> 0%N.
Proof.
  induction n as [|n IH]; intros st H; [apply randbit_total; exact H|].
  rewrite nth_call_S. destruct (IH st H) as (b & s & -> & H1 & _). cbn [bind snd].
  apply randbit_total; exact H1.
Qed.
Lemma nth_call_eq : forall n st, st80 st -> nth_call n st = Ok (cbit st n, cst st (S n)).
Proof.
  intros n st H. unfold cbit, cst. destruct (nth_call_total n st H) as (b & s & -> & _). reflexivity.
Qed.
Lemma cst_80 : forall n st, st80 st -> st80 (cst st n).
Proof.
  intros [|n] st H; [exact H|]. unfold cst. destruct (nth_call_total n st H) as (b & s & -> & H1 & _). exact H1.
Qed.
Lemma randbit_cst : forall n st, st80 st -> randbit (cst st n) = Ok (cbit st n, cst st (S n)).
Proof.
  intros [|n] st H; [exact (nth_call_eq 0 st H)|].
  rewrite <- (nth_call_eq (S n) st H), nth_call_S, (nth_call_eq n st H). reflexivity.
Qed.
Lemma cst_add : forall m n st, st80 st -> cst (cst st m) n = cst st (m + n).
Proof.
  intros m n st H. induction n as [|n IH]; [rewrite Nat.add_0_r; reflexivity|].
  pose proof (randbit_cst n (cst st m) (cst_80 m st H)) as E. rewrite IH in E.
  rewrite (randbit_cst (m + n) st H) in E. rewrite Nat.add_succ_r. injection E as _ E. symmetry. exact E.
Qed.

(** ** RandbitMat *)

(** number of the call that decides the bit in row i, position j from the left of word k *)
Definition callno (w : width) (i j k : nat) : nat := (i * wb w + j) * nw w + k.

Lemma callno_inj : forall w i j k r c q, j < wb w -> c < wb w -> k < nw w -> q < nw w ->
  callno w r c q = callno w i j k -> r = i /\ c = j /\ q = k.
Proof.
  intros w i j k r c q Hj Hc Hk Hq E. unfold callno in E.
  destruct (Nat.div_mod_unique (nw w) (r * wb w + c) (i * wb w + j) q k Hq Hk ltac:(lia)) as [E1 E2].
  destruct (Nat.div_mod_unique (wb w) r i c j Hc Hj ltac:(lia)) as [E3 E4]. auto.
Qed.

Lemma ident_bit : forall w j b, j < wb w ->
  exists y, aget (ident w) j = Ok y /\ N.testbit y (N.of_nat b) = Nat.eqb b (wb w - 1 - j).
Proof.
  intros w j b Hj.
  assert (X : forallb (fun j => match aget (ident w) j with Ok y => N.eqb y (2 ^ N.of_nat (wb w - 1 - j)) | UB => false end)
              (seq 0 (wb w)) = true) by (destruct w; vm_compute; reflexivity).
  rewrite forallb_forall in X. specialize (X j ltac:(apply in_seq; lia)).
  destruct (aget (ident w) j) as [y|]; [|discriminate]. apply N.eqb_eq in X. exists y. split; [reflexivity|].
  subst y. rewrite N.pow2_bits_eqb.
  destruct (Nat.eqb_spec b (wb w - 1 - j)), (N.eqb_spec (N.of_nat (wb w - 1 - j)) (N.of_nat b)); auto; lia.
Qed.

Definition flip (w : width) (st : N) (cnt r q b : nat) : bool :=
  ((Nat.ltb b (wb w) && Nat.ltb (callno w r (wb w - 1 - b) q) cnt) && cbit st (callno w r (wb w - 1 - b) q))%bool.
Definition Inv (w : width) (m0 : mat) (st0 : N) (cnt : nat) (ms : mat * N) : Prop :=
  shapeM w (fst ms) /\ snd ms = cst st0 cnt /\
  forall r q b, r < dim w -> q < nw w ->
    N.testbit (word (fst ms) r q) (N.of_nat b) =
    xorb (N.testbit (word m0 r q) (N.of_nat b)) (flip w st0 cnt r q b).

Lemma flip_S : forall w st i j k r q b, j < wb w -> k < nw w -> q < nw w ->
  flip w st (S (callno w i j k)) r q b =
  xorb (flip w st (callno w i j k) r q b)
       (((Nat.eqb r i && Nat.eqb q k) && Nat.eqb b (wb w - 1 - j)) && cbit st (callno w i j k)).
Proof.
  intros w st i j k r q b Hj Hk Hq. unfold flip.
  destruct (Nat.ltb_spec b (wb w)) as [Hb|Hb].
  - cbn [andb]. destruct (Nat.eq_dec (callno w r (wb w - 1 - b) q) (callno w i j k)) as [E|E].
    + destruct (callno_inj w i j k r (wb w - 1 - b) q Hj ltac:(lia) Hk Hq E) as (-> & E2 & ->).
      rewrite E, !Nat.eqb_refl. replace (b =? wb w - 1 - j) with true by (symmetry; apply Nat.eqb_eq; lia).
      rewrite Nat.ltb_irrefl. replace (callno w i j k <? S (callno w i j k)) with true by (symmetry; apply Nat.ltb_lt; lia).
      cbn [andb]. rewrite xorb_false_l. reflexivity.
    + replace (((r =? i) && (q =? k)) && (b =? wb w - 1 - j))%bool with false.
      2: { destruct (Nat.eqb_spec r i) as [->|]; [|reflexivity]. destruct (Nat.eqb_spec q k) as [->|]; [|reflexivity].
           destruct (Nat.eqb_spec b (wb w - 1 - j)) as [->|]; [|reflexivity].
           destruct E. f_equal. lia. }
      cbn [andb]. rewrite xorb_false_r. f_equal.
      destruct (Nat.ltb_spec (callno w r (wb w - 1 - b) q) (S (callno w i j k))),
               (Nat.ltb_spec (callno w r (wb w - 1 - b) q) (callno w i j k)); auto; lia.
  - cbn [andb]. replace (b =? wb w - 1 - j) with false by (symmetry; apply Nat.eqb_neq; lia).
    rewrite andb_false_r. reflexivity.
Qed.

Lemma flip_if_wp : forall w m0 st0 i j k ms, st80 st0 -> i < dim w -> j < wb w -> k < nw w ->
  Inv w m0 st0 (callno w i j k) ms -> wp (flip_if w i j k ms) (Inv w m0 st0 (S (callno w i j k))).
Proof.
  intros w m0 st0 i j k [m st] Hst Hi Hj Hk (Hs & Est & HB). cbn [fst snd] in *. subst st.
  unfold flip_if. rewrite (randbit_cst _ st0 Hst). cbn [bind].
  destruct (cbit st0 (callno w i j k)) eqn:Ec.
  - apply wp_bind. apply wp_mget with (w := w); auto.
    destruct (ident_bit w j 0 Hj) as (y & Ey & _). rewrite Ey. cbn [bind].
    apply wp_bind. apply wp_mset with (w := w); auto. intros m' Hm' HW. apply wp_ok.
    split; [exact Hm'|]. split; [reflexivity|]. cbn [fst snd]. intros r q b Hr Hq.
    rewrite flip_S by auto. rewrite HW, Ec, andb_true_r, <- xorb_assoc, <- HB by auto.
    destruct (Nat.eqb_spec r i) as [->|]; [|cbn [andb]; rewrite xorb_false_r; reflexivity].
    destruct (Nat.eqb_spec q k) as [->|]; [|cbn [andb]; rewrite xorb_false_r; reflexivity].
    cbn [andb]. rewrite N.lxor_spec. f_equal.
    destruct (ident_bit w j b Hj) as (y' & Ey' & Hb). rewrite Ey in Ey'. injection Ey' as ->. exact Hb.
  - apply wp_ok. split; [exact Hs|]. split; [reflexivity|]. cbn [fst snd]. intros r q b Hr Hq.
    rewrite flip_S by auto. rewrite Ec, andb_false_r, xorb_false_r. apply HB; auto.
Qed.

Lemma RandbitMat_wp : forall w m st, shapeM w m -> st80 st ->
  wp (RandbitMat w m st) (Inv w m st (dim w * wb w * nw w)).
Proof.
  intros w m st Hm Hst. unfold RandbitMat.
  apply wp_for_up with (I := fun i => Inv w m st (callno w i 0 0)).
  - lia.
  - split; [exact Hm|]. split; [reflexivity|]. cbn [fst snd]. intros r q b Hr Hq. unfold flip.
    replace (callno w r (wb w - 1 - b) q <? callno w 0 0 0) with false
      by (symmetry; apply Nat.ltb_ge; apply Nat.le_0_l).
    rewrite andb_false_r. cbn [andb]. rewrite xorb_false_r. reflexivity.
  - intros i ms _ Hi HI. replace (callno w (S i) 0 0) with (callno w i (wb w) 0) by (unfold callno; lia).
    apply wp_for_up with (I := fun j => Inv w m st (callno w i j 0)); auto; [lia|].
    clear ms HI. intros j ms _ Hj HI. replace (callno w i (S j) 0) with (callno w i j (nw w)) by (unfold callno; lia).
    apply wp_for_up with (I := fun k => Inv w m st (callno w i j k)); auto; [lia|].
    clear ms HI. intros k ms _ Hk HI. replace (callno w i j (S k)) with (S (callno w i j k)) by (unfold callno; lia).
    apply flip_if_wp; auto.
  - intros ms HI. replace (dim w * wb w * nw w) with (callno w (dim w) 0 0) by (unfold callno; lia). exact HI.
Qed.

(** the statement without the counters *)
Lemma RandbitMat_spec : forall w m st, shapeM w m -> st80 st ->
  exists m', RandbitMat w m st = Ok (m', cst st (dim w * wb w * nw w)) /\ shapeM w m' /\
  forall i k b, i < dim w -> k < nw w ->
    N.testbit (word m' i k) (N.of_nat b) =
    xorb (N.testbit (word m i k) (N.of_nat b))
         (if Nat.ltb b (wb w) then cbit st ((i * wb w + (wb w - 1 - b)) * nw w + k) else false).
Proof.
  intros w m st Hm Hst. pose proof (RandbitMat_wp w m st Hm Hst) as W.
  destruct (RandbitMat w m st) as [[m' s']|]; [|contradiction W]. destruct W as (H1 & H2 & H3).
  cbn [fst snd] in *. subst s'. exists m'. split; [reflexivity|]. split; [exact H1|].
  intros i k b Hi Hk. rewrite H3 by auto. f_equal. unfold flip.
  destruct (Nat.ltb_spec b (wb w)) as [Hb|]; [|reflexivity]. cbn [andb].
  replace (callno w i (wb w - 1 - b) k <? dim w * wb w * nw w) with true; [reflexivity|].
  symmetry. apply Nat.ltb_lt. unfold callno.
  assert (i * wb w + (wb w - 1 - b) < dim w * wb w) by nia. nia.
Qed.
