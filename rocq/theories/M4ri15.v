(** m4ri_parity64, ModelM4ri2.v *)
From Coq Require Import Arith NArith ZArith List Bool Lia ZifyNat.
From Verif Require Import Base Spec LinAlg ModelM4ri SpecM4ri M4ri1 ModelM4ri2 M4ri9 M4ri10 M4ri11.
Import ListNotations.
Local Open Scope nat_scope.
#[local] Ltac Zify.zify_post_hook ::= Z.to_euclidean_division_equations.

(** Bit p is the sum of s-th bits of the word for the group p / s *)
Definition par (s : nat) (X : N) (F : nat -> N) : Prop :=
  forall p, p < 64 -> tb X p = xsum (64 / s) (fun t => tb (F (p / s)) (p mod s + s * t)).

Lemma xsum_pair : forall n f, xsum (2 * n) f = xsum n (fun t => xorb (f (2 * t)) (f (2 * t + 1))).
Proof.
  induction n as [|n IH]; intros f; [reflexivity|].
  replace (2 * S n) with (S (S (2 * n))) by lia. cbn [xsum]. rewrite IH.
  replace (2 * n + 1) with (S (2 * n)) by lia.
  destruct (xsum n _), (f (2 * n)), (f (S (2 * n))); reflexivity.
Qed.

Lemma par_base : forall w, par 64 w (fun _ => w).
Proof.
  intros w p Hp. change (64 / 64) with 1. cbn [xsum]. rewrite Nat.mod_small by exact Hp.
  replace (p + 64 * 0) with p by lia. destruct (tb w p); reflexivity.
Qed.

Definition sel (FA FB : nat -> N) (g : nat) : N := if Nat.odd g then FA (g / 2) else FB (g / 2).

Lemma par_step : forall s A B X FA FB, 0 < s -> (exists q, 64 = 2 * s * q) -> par (2 * s) A FA -> par (2 * s) B FB ->
  (forall p, p < 64 -> tb X p = if Nat.odd (p / s) then xorb (tb A (p - s)) (tb A p) else xorb (tb B p) (tb B (p + s))) ->
  par s X (sel FA FB).
Proof.
  intros s A B X FA FB Hs [q Hq] HA HB HX p Hp. rewrite HX by exact Hp. unfold sel.
  destruct (dec2 s p Hs) as [a [b [c [Ep [Hb Hc]]]]].
  assert (Haq : a < q) by nia.
  assert (E64 : 64 / s = 2 * q) by (symmetry; apply (Nat.div_unique _ _ _ 0); lia).
  assert (E64' : 64 / (2 * s) = q) by (symmetry; apply (Nat.div_unique _ _ _ 0); lia).
  subst p. rewrite E64, xsum_pair, !dec_div, !dec_mod by lia. rewrite odd_even, even_mod, !dec_bit by lia.
  replace ((2 * a + b) / 2) with a by lia.
  assert (b = 0 \/ b = 1) as [-> | ->] by lia; cbn [Nat.eqb negb].
  - replace (2 * s * a + s * 0 + c + s) with (2 * s * a + s * 1 + c) by lia.
    rewrite !HB by nia. rewrite E64', !dec_div2, !dec_mod2 by lia. rewrite <- xsum_xorb. apply xsum_ext.
    intros t Ht. f_equal; f_equal; lia.
  - replace (2 * s * a + s * 1 + c - s) with (2 * s * a + s * 0 + c) by lia.
    rewrite !HA by nia. rewrite E64', !dec_div2, !dec_mod2 by lia. rewrite <- xsum_xorb. apply xsum_ext.
    intros t Ht. f_equal; f_equal; lia.
Qed.

Lemma mix_par : forall s (ma mb : N) A B FA FB, 0 < s -> (exists q, 64 = 2 * s * q) ->
  maskok s mb -> (forall p, p < 64 -> tb ma p = Nat.odd (p / s)) ->
  par (2 * s) A FA -> par (2 * s) B FB -> par s (mix (N.of_nat s) ma mb A B) (sel FA FB).
Proof.
  intros s ma mb A B FA FB Hs Hq Hmb Hma HA HB. apply (par_step s A B); auto.
  intros p Hp. unfold mix. rewrite tb_lor, !tb_land, !tb_lxor, tb_land, tb_shl, tb_shr, tb_ffff, Hmb, Hma by exact Hp.
  destruct (Nat.ltb_spec p 64); [|lia]. rewrite andb_true_r, !odd_even.
  destruct (Nat.even (p / s)) eqn:E; cbn [negb]; rewrite ?andb_false_r, ?andb_true_r, ?orb_false_l, ?orb_false_r.
  - apply xorb_comm.
  - destruct (Nat.leb_spec s p) as [H1|H1]; [reflexivity|]. rewrite Nat.div_small in E by exact H1. discriminate.
Qed.
Lemma mix32_par : forall A B, w64 [A] -> w64 [B] -> par 32 (mix32 A B) (sel (fun _ => A) (fun _ => B)).
Proof.
  intros A B WA WB. apply (par_step 32 A B); [lia|exists 1; reflexivity|apply par_base|apply par_base|].
  intros p Hp. unfold mix32. change 32%N with (N.of_nat 32).
  rewrite tb_lor, !tb_land, tb_shl, !tb_shr, !tb_lxor, tb_shr, tb_land, tb_shl, !tb_ffff.
  destruct (Nat.ltb_spec p 64); [|lia]. rewrite andb_true_r.
  assert (HB0 : forall b, 64 <= b -> tb B b = false) by (intros b Hb; apply (WB 0 b Hb)).
  assert (HA0 : forall b, 64 <= b -> tb A b = false) by (intros b Hb; apply (WA 0 b Hb)).
  destruct (Nat.leb_spec 32 p) as [H1|H1].
  - replace (p / 32) with 1 by lia. cbn [Nat.odd Nat.even negb andb].
    rewrite (HB0 (p + 32)) by lia. destruct (Nat.ltb_spec (p + 32) 64); [lia|]. rewrite andb_false_r. cbn [xorb].
    rewrite orb_false_r. replace (p - 32 + 32) with p by lia. apply xorb_comm.
  - replace (p / 32) with 0 by lia. cbn [Nat.odd Nat.even negb andb orb].
    destruct (Nat.leb_spec 32 (p + 32)), (Nat.ltb_spec (p + 32) 64); try lia. cbn [andb]. rewrite andb_true_r.
    replace (p + 32 - 32) with p by lia. reflexivity.
Qed.

Lemma odd_mask : forall s m, maskb s (N.lxor m ffff) = true -> forall p, p < 64 -> tb m p = Nat.odd (p / s).
Proof.
  intros s m H p Hp. pose proof (maskb_ok s _ H p Hp) as HM. rewrite tb_lxor, tb_ffff in HM.
  destruct (Nat.ltb_spec p 64); [|lia]. rewrite odd_even, <- HM. destruct (tb m p); reflexivity.
Qed.
Ltac mixtac s :=
  intros A B FA FB HA HB; apply (mix_par s);
  [lia|eexists (64 / (2 * s)); reflexivity|apply maskb_ok; vm_compute; reflexivity|apply odd_mask; vm_compute; reflexivity|exact HA|exact HB].
Lemma mix16_par : forall A B FA FB, par 32 A FA -> par 32 B FB -> par 16 (mix16 A B) (sel FA FB).
Proof. mixtac 16. Qed.
Lemma mix8_par : forall A B FA FB, par 16 A FA -> par 16 B FB -> par 8 (mix8 A B) (sel FA FB).
Proof. mixtac 8. Qed.
Lemma mix4_par : forall A B FA FB, par 8 A FA -> par 8 B FB -> par 4 (mix4 A B) (sel FA FB).
Proof. mixtac 4. Qed.
Lemma mix2_par : forall A B FA FB, par 4 A FA -> par 4 B FB -> par 2 (mix2 A B) (sel FA FB).
Proof. mixtac 2. Qed.
Lemma mix1_par : forall A B FA FB, par 2 A FA -> par 2 B FB -> par 1 (mix1 A B) (sel FA FB).
Proof. mixtac 1. Qed.

(** The word whose parity is in each group *)
Definition sel32 (a b : N) := sel (fun _ => a) (fun _ => b).
Definition helper_sel (o : nat) (buf : nat -> N) : nat -> N :=
  let b i := buf (o + i) in
  sel (sel (sel (sel32 (b 60) (b 28)) (sel32 (b 44) (b 12))) (sel (sel32 (b 52) (b 20)) (sel32 (b 36) (b 4))))
      (sel (sel (sel32 (b 56) (b 24)) (sel32 (b 40) (b 8))) (sel (sel32 (b 48) (b 16)) (sel32 (b 32) (b 0)))).
Lemma helper_par : forall o buf, (forall i, w64 [buf i]) -> par 4 (parity64_helper o buf) (helper_sel o buf).
Proof.
  intros o buf H. unfold parity64_helper, helper_sel. cbv zeta.
  apply mix4_par; apply mix8_par; apply mix16_par; apply mix32_par; apply H.
Qed.

Theorem parity64_ok : forall l, w64 l ->
  (forall p, 64 <= p -> tb (parity64 l) p = false) /\
  (forall p, p < 64 -> tb (parity64 l) p = xsum 64 (fun b => tb (rw l p) b)).
Proof.
  intros l HW. split.
  - intros p Hp. unfold parity64, mix1, mix. rewrite tb_lor, !tb_land.
    rewrite (proj1 (tb_lt 0xAAAAAAAAAAAAAAAA 64) eq_refl p Hp), (proj1 (tb_lt 0x5555555555555555 64) eq_refl p Hp), !andb_false_r.
    reflexivity.
  - intros p Hp. unfold parity64. set (buf := fun i => nth i l 0%N).
    assert (HB : forall i, w64 [buf i]).
    { intros i [|k] b Hb; [exact (HW i b Hb)|]. unfold rw. cbn [nth]. destruct k; apply tb_0. }
    pose proof (mix1_par _ _ _ _ (mix2_par _ _ _ _ (helper_par 3 buf HB) (helper_par 1 buf HB))
                                 (mix2_par _ _ _ _ (helper_par 2 buf HB) (helper_par 0 buf HB)) p Hp) as H.
    rewrite H. change (64 / 1) with 64. rewrite Nat.div_1_r, Nat.mod_1_r. apply xsum_ext. intros b Hb.
    rewrite Nat.mul_1_l, Nat.add_0_l. f_equal.
    change (rw l p) with (buf p). clearbody buf. clear - Hp.
    do 64 (destruct p as [|p]; [reflexivity|]). lia.
Qed.
