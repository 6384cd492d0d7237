(** Random matrices and vectors: the values drawn. *)
From Coq Require Import Arith NArith List Bool Lia.
From Verif Require Import Base Tables Model Spec LinAlg Mem Cons.
Import ListNotations.

(** world after k calls of cus_random, and the value of call number k *)
Definition adv (s : world) (k : nat) : world := Nat.iter k (fun s => snd (cus_random s)) s.
Definition rnd (s : world) (k : nat) : N := fst (cus_random (adv s k)).

Lemma adv_S : forall s k, adv s (S k) = snd (cus_random (adv s k)).
Proof. reflexivity. Qed.
Lemma cus_adv : forall s k, cus_random (adv s k) = (rnd s k, adv s (S k)).
Proof. intros s k. unfold rnd. rewrite adv_S. destruct (cus_random (adv s k)); reflexivity. Qed.
Lemma adv_add : forall s a b, adv (adv s a) b = adv s (a + b).
Proof.
  intros s a b. induction b as [|b IH].
  - rewrite Nat.add_0_r. reflexivity.
  - rewrite Nat.add_succ_r, !adv_S, IH. reflexivity.
Qed.

(** calls of cus_random for one element *)
Definition draws (w : width) : nat := match w with W64 | W128 | W256 => 2 | _ => 1 end.

(** element number t drawn from world s *)
Definition relem (e : endian) (w : width) (s : world) (t : nat) : N :=
  match w with
  | W4 => (rnd s t mod 16)%N
  | W8 | W16 | W32 => trunc w (rnd s t)
  | _ => put_sub e 64 32 0 (rnd s (2 * t + 1)) (put_sub e 64 32 1 (rnd s (2 * t)) 0)
  end.

Lemma put_sub_bit : forall e t s q v x k,
  N.testbit (put_sub e t s q v x) k =
  if ((sub_shift e t s q <=? k) && (k <? sub_shift e t s q + N.of_nat s))%N%bool
  then N.testbit v (k - sub_shift e t s q) else N.testbit x k.
Proof.
  intros e t s q v x k. unfold put_sub. cbv zeta. set (sh := sub_shift e t s q).
  rewrite N.lor_spec, N.ldiff_spec.
  destruct (N.leb_spec sh k) as [H1|H1]; cbn [andb].
  - rewrite !N.shiftl_spec_high by lia.
    destruct (N.ltb_spec k (sh + N.of_nat s)) as [H2|H2].
    + rewrite N.ones_spec_low by lia. rewrite N.mod_pow2_bits_low by lia.
      rewrite andb_false_r. reflexivity.
    + rewrite N.ones_spec_high by lia. rewrite N.mod_pow2_bits_high by lia.
      rewrite andb_true_r, orb_false_r. reflexivity.
  - rewrite !N.shiftl_spec_low by lia. rewrite andb_true_r, orb_false_r. reflexivity.
Qed.

Lemma put64_old : forall e a b x, (x < 2 ^ 64)%N ->
  put_sub e 64 32 0 b (put_sub e 64 32 1 a x) = put_sub e 64 32 0 b (put_sub e 64 32 1 a 0).
Proof.
  intros e a b x Hx. apply N.bits_inj. intros k. rewrite !put_sub_bit, N.bits_0.
  assert (Hh : (64 <= k)%N -> N.testbit x k = false) by (intros; apply (testbit_high x 64); auto).
  destruct e; unfold sub_shift;
    repeat match goal with |- context [N.of_nat ?n] =>
             let v := eval vm_compute in (N.of_nat n) in change (N.of_nat n) with v end;
    repeat match goal with |- context [N.leb ?a ?b] => destruct (N.leb_spec a b)
                         | |- context [N.ltb ?a ?b] => destruct (N.ltb_spec a b) end;
    cbn [andb]; auto; try lia; try (apply Hh; lia).
Qed.
Lemma put64_bound : forall e a b, (put_sub e 64 32 0 b (put_sub e 64 32 1 a 0) < 2 ^ 64)%N.
Proof.
  intros e a b. apply bits_bound. intros k Hk. rewrite !put_sub_bit, N.bits_0.
  destruct e; unfold sub_shift;
    repeat match goal with |- context [N.of_nat ?n] =>
             let v := eval vm_compute in (N.of_nat n) in change (N.of_nat n) with v end;
    repeat match goal with |- context [N.leb ?a ?b] => destruct (N.leb_spec a b)
                         | |- context [N.ltb ?a ?b] => destruct (N.ltb_spec a b) end;
    cbn [andb]; auto; lia.
Qed.

Lemma rand_elem_adv : forall e w old s t, (old < 2 ^ N.of_nat (cb w))%N ->
  rand_elem e w old (adv s (draws w * t)) = (relem e w s t, adv s (draws w * S t)).
Proof.
  intros e w old s t Hold.
  assert (L15 : forall x, N.land x 15 = (x mod 16)%N).
  { intros x. change 15%N with (N.ones 4). apply N.land_ones. }
  destruct w; unfold rand_elem, draws, relem, rand64;
    rewrite ?Nat.mul_1_l, ?cus_adv.
  - f_equal. rewrite L15. unfold trunc. apply N.mod_small. cbn [cb].
    pose proof (N.mod_lt (rnd s t) 16 ltac:(lia)). change (2 ^ N.of_nat 8)%N with 256%N. lia.
  - reflexivity.
  - reflexivity.
  - reflexivity.
  - cbv beta iota zeta. rewrite ?cus_adv. f_equal.
    + replace (2 * t + 1) with (S (2 * t)) by lia. apply put64_old. exact Hold.
    + f_equal. lia.
  - cbv beta iota zeta. rewrite ?cus_adv. f_equal.
    + replace (2 * t + 1) with (S (2 * t)) by lia. apply put64_old. exact Hold.
    + f_equal. lia.
  - cbv beta iota zeta. rewrite ?cus_adv. f_equal.
    + replace (2 * t + 1) with (S (2 * t)) by lia. apply put64_old. exact Hold.
    + f_equal. lia.
Qed.

Lemma relem_bound : forall e w s t, (relem e w s t < 2 ^ N.of_nat (wb w))%N.
Proof.
  intros e w s t. destruct w; unfold relem; cbn [wb];
    try (apply N.mod_lt, N.pow_nonzero; lia); try (apply N.mod_lt; lia); apply put64_bound.
Qed.

Lemma randM_ok : forall e w m s, typedM w m ->
  randM e w m s = Ok (mk w (fun i k => relem e w (reseed s) (i * nw w + k)),
                      adv (reseed s) (draws w * (dim w * nw w))).
Proof.
  intros e w m s Hm. unfold randM. apply wp_eq. set (s0 := reseed s).
  apply mat_of_iff in Hm. destruct Hm as [Sm Bm].
  pose (I := fun (i k : nat) (st : mat * world) => let (m', s') := st in
    shapeM w m' /\ s' = adv s0 (draws w * (i * nw w + k)) /\
    (forall i' k', (i' < i \/ (i' = i /\ k' < k)) -> k' < nw w ->
       word m' i' k' = relem e w s0 (i' * nw w + k')) /\
    (forall i' k', (i < i' \/ (i = i' /\ k <= k')) -> word m' i' k' = word m i' k')).
  apply wp_for_up with (I := fun i st => I i 0 st).
  - lia.
  - split; [exact Sm|]. split; [|split].
    + replace (draws w * (0 * nw w + 0)) with 0 by lia. reflexivity.
    + intros i' k' H; lia.
    + auto.
  - intros i st _ Hi HI.
    apply wp_for_up with (I := fun k st => I i k st); [lia|exact HI| |].
    + clear st HI. intros k [m1 s1] _ Hk (E1 & E2 & E3 & E4).
      apply wp_bind. apply wp_mget with (w := w); auto.
      subst s1. rewrite rand_elem_adv. 2:{ rewrite E4 by lia. apply Bm. }
      apply wp_bind. apply wp_mset with (w := w); auto. intros m2 F1 F2. apply wp_ok.
      split; [exact F1|]. split; [f_equal; lia|]. split.
      * intros i' k' H Hk'. rewrite F2.
        destruct (Nat.eqb_spec i' i) as [->|]; cbn [andb]; [|apply E3; auto; lia].
        destruct (Nat.eqb_spec k' k) as [->|]; [reflexivity|apply E3; auto; lia].
      * intros i' k' H. rewrite F2.
        destruct (Nat.eqb_spec i' i) as [->|]; cbn [andb]; [|apply E4; lia].
        destruct (Nat.eqb_spec k' k) as [->|]; [lia|apply E4; lia].
    + clear st HI. intros [m1 s1] (E1 & E2 & E3 & E4). split; [exact E1|].
      split; [rewrite E2; f_equal; lia|]. split.
      * intros i' k' H Hk. apply E3; auto. lia.
      * intros i' k' H. apply E4. lia.
  - intros [m1 s1] (E1 & E2 & E3 & E4). f_equal.
    + apply word_ext with (w := w); auto using shape_mk. intros i k Hi Hk.
      rewrite word_mk by auto. apply E3; auto.
    + rewrite E2. f_equal. lia.
Qed.

Lemma wf_rand : forall e w s, wfM w (mk w (fun i k => relem e w s (i * nw w + k))).
Proof. intros. apply mk_bound. intros. apply relem_bound. Qed.

Definition vec_seed (w : width) (s : world) : world :=
  match w with W64 => s | _ => reseed s end.
Lemma randV_ok : forall e w v s, typedV w v ->
  randV e w v s = Ok (mkv w (fun k => relem e w (vec_seed w s) k),
                      adv (vec_seed w s) (draws w * nw w)).
Proof.
  intros e w v s Hv. unfold randV. fold (vec_seed w s). apply wp_eq. set (s0 := vec_seed w s).
  apply vec_of_iff in Hv. destruct Hv as [Sv Bv].
  apply wp_for_up with (I := fun k (st : vec * world) => let (v', s') := st in
    shapeV w v' /\ s' = adv s0 (draws w * k) /\
    (forall k', k' < k -> nth k' v' 0%N = relem e w s0 k') /\
    (forall k', k <= k' -> nth k' v' 0%N = nth k' v 0%N)).
  - lia.
  - split; [exact Sv|]. rewrite Nat.mul_0_r. repeat split; auto. intros; lia.
  - intros k [v1 s1] _ Hk (E1 & E2 & E3 & E4).
    apply wp_bind. apply wp_vget with (w := w); auto.
    subst s1. rewrite rand_elem_adv. 2:{ rewrite E4 by lia. apply Bv. }
    apply wp_bind. apply wp_vset with (w := w); auto. intros v2 F1 F2. apply wp_ok.
    split; [exact F1|]. split; [reflexivity|]. split.
    + intros k' H. rewrite F2. destruct (Nat.eqb_spec k' k) as [->|]; auto. apply E3; lia.
    + intros k' H. rewrite F2. destruct (Nat.eqb_spec k' k) as [->|]; [lia|]. apply E4; lia.
  - intros [v1 s1] (E1 & E2 & E3 & E4). f_equal; auto.
    apply list_ext with (d := 0%N). { rewrite shape_mkv. exact E1. }
    intros k Hk. rewrite E1 in Hk. rewrite nth_mkv by auto. apply E3; auto.
Qed.
Lemma wf_randv : forall e w s, wfV w (mkv w (fun k => relem e w s k)).
Proof. intros. apply mkv_bound. intros. apply relem_bound. Qed.

Lemma typed_fresh_m : forall w, typedM w (fresh_m w).
Proof.
  intros w. apply mat_of_iff. split; [apply shape_fresh_m|]. intros i k.
  assert (E : word (fresh_m w) i k = 0%N).
  { unfold word, fresh_m. destruct (Nat.lt_ge_cases i (dim w)) as [H|H].
    - rewrite (nth_indep _ [] (repeat 0%N (nw w))) by (rewrite repeat_length; auto).
      rewrite nth_repeat. apply nth_repeat.
    - rewrite (nth_overflow (repeat _ _)) by (rewrite repeat_length; auto).
      apply nth_overflow. cbn; lia. }
  rewrite E. apply N.neq_0_lt_0, N.pow_nonzero; lia.
Qed.
