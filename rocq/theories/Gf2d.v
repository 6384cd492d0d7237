(** Pointers, and a sequence of random numbers for which the generation of affine maps ends: lemmas
    for ModelGf2.v *)
From Coq Require Import Arith NArith ZArith List Bool Lia ZifyNat.
From Verif Require Import Base Spec LinAlg ModelM4ri SpecM4ri M4ri1 M4ri2 M4ri8 ModelGf2 SpecGf2 Gf2a Gf2b Gf2c.
From Verif Require ModelSM4.
Import ListNotations.
Local Open Scope nat_scope.
#[local] Ltac Zify.zify_post_hook ::= Z.to_euclidean_division_equations.

Lemma deref_app : forall h x q, q <> Some (length h) -> deref (h ++ [x]) q = deref h q.
Proof.
  intros h x [i|] H; [|reflexivity]. cbn [deref]. unfold aget. destruct (Nat.lt_ge_cases i (length h)) as [L|L].
  - rewrite nth_error_app1 by exact L. reflexivity.
  - assert (i <> length h) by congruence. rewrite (proj2 (nth_error_None _ _)) by (rewrite app_length; cbn; lia).
    rewrite (proj2 (nth_error_None h i)) by lia. reflexivity.
Qed.
Lemma deref_new : forall h M, deref (h ++ [Some M]) (Some (length h)) = Ok M.
Proof. intros. cbn [deref]. unfold aget. rewrite nth_error_app2, Nat.sub_diag by lia. reflexivity. Qed.
Lemma deref_out : forall h, deref h (Some (length h)) = UB.
Proof. intros. cbn [deref]. rewrite aget_ub by lia. reflexivity. Qed.
Lemma deref_live : forall h i M, deref h (Some i) = Ok M -> i < length h.
Proof.
  intros h i M H. destruct (Nat.lt_ge_cases i (length h)) as [L|L]; [exact L|]. cbn [deref] in H. rewrite aget_ub in H by lia. discriminate.
Qed.

Lemma free_ok : forall h dst, usable h dst -> exists h', MatGf2Free_p h dst = Ok h' /\ length h' = length h /\ deref h' dst = UB /\
  forall q, q <> dst -> deref h' q = deref h q.
Proof.
  intros h dst [->|[M H]]; [exists h; auto|]. destruct dst as [i|]; [|discriminate].
  assert (L := deref_live h i M H). exists (upd h i None). split; [|split; [apply length_upd|split]].
  - unfold MatGf2Free_p. rewrite H. cbn [bind]. unfold aset. rewrite (proj2 (Nat.ltb_lt _ _) L). reflexivity.
  - cbn [deref]. rewrite (aget_ok _ _ _ None) by (rewrite length_upd; exact L). rewrite nth_upd by exact L. rewrite Nat.eqb_refl. reflexivity.
  - intros [j|] Hq; [|reflexivity]. cbn [deref]. destruct (Nat.lt_ge_cases j (length h)) as [Lj|Lj].
    + rewrite !(aget_ok _ _ _ None) by (rewrite ?length_upd; exact Lj). rewrite nth_upd by exact L.
      destruct (Nat.eqb_spec j i); [congruence|reflexivity].
    + rewrite !aget_ub by (rewrite ?length_upd; exact Lj). reflexivity.
Qed.

Lemma usable_neq : forall h dst, usable h dst -> Some (length h) <> dst.
Proof. intros h dst [->|[M H]]; [discriminate|]. intros <-. apply deref_live in H. lia. Qed.

Lemma store_ok : forall h dst M, usable h dst -> exists h' p, store_p h dst (Ok M) = Ok (h', p) /\ replaced h dst h' p M.
Proof.
  intros h dst M H. assert (N := usable_neq h dst H).
  assert (U : usable (h ++ [Some M]) dst).
  { destruct H as [->|[X H]]; [left; reflexivity|right; exists X]. rewrite deref_app by congruence. exact H. }
  destruct (free_ok _ _ U) as (h' & E & L & F1 & F2). exists h', (Some (length h)). split.
  - unfold store_p. cbn [bind alloc]. rewrite E. reflexivity.
  - split; [apply deref_out|]. split; [rewrite F2 by exact N; apply deref_new|]. split; [exact N|]. split; [exact F1|].
    intros q Q1 Q2. rewrite F2 by exact Q2. apply deref_app. exact Q1.
Qed.
(** freed first *)
Lemma realloc_ok : forall h dst M, usable h dst -> exists h', MatGf2Free_p h dst = Ok h' /\
  (forall q, q <> dst -> deref h' q = deref h q) /\ deref h' dst = UB /\
  exists h'' p, alloc h' M = (h'', p) /\ replaced h dst h'' p M.
Proof.
  intros h dst M H. assert (N := usable_neq h dst H). destruct (free_ok _ _ H) as (h' & E & L & F1 & F2).
  exists h'. split; [exact E|]. split; [exact F2|]. split; [exact F1|].
  exists (h' ++ [Some M]), (Some (length h')). split; [reflexivity|]. rewrite L. split; [apply deref_out|].
  split; [rewrite <- L; apply deref_new|]. split; [exact N|]. split; [rewrite deref_app by congruence; exact F1|].
  intros q Q1 Q2. rewrite deref_app by congruence. apply F2. exact Q2.
Qed.

(** ** A fair sequence *)

(** word number m has bit m mod 8 and, if m mod 32 >= 8, bit m mod 32 *)
Definition fair_rnd (s : nat) : N :=
  let m := s / 3 mod 32 in
  match Nat.modulo s 3 with
  | 0%nat => (2 ^ N.of_nat (m mod 8) + (if Nat.leb 8 m && Nat.ltb m 31 then 2 ^ N.of_nat m else 0))%N
  | 1%nat => if Nat.eqb m 31 then 128%N else 0%N
  | _ => 0%N
  end.
Definition drawn_mzd (n m : nat) : mzd :=
  mkmzd n n (map (fun i => [num n (fun k => N.testbit (word_at fair_rnd (3 * (m + i))) (N.of_nat (n - 1 - k)))]) (seq 0 n)).

Lemma fair_periodic : forall s, s mod 3 = 0 -> forall i, word_at fair_rnd (s + 3 * i) = word_at fair_rnd (3 * (s / 3 mod 32 + i)).
Proof.
  intros s Hs i. unfold word_at.
  assert (P : forall k, k < 3 -> fair_rnd (s + 3 * i + k) = fair_rnd (3 * (s / 3 mod 32 + i) + k)).
  { intros k Hk. unfold fair_rnd. replace ((s + 3 * i + k) mod 3) with ((3 * (s / 3 mod 32 + i) + k) mod 3) by lia.
    replace ((s + 3 * i + k) / 3 mod 32) with ((3 * (s / 3 mod 32 + i) + k) / 3 mod 32) by lia. reflexivity. }
  assert (P0 := P 0 ltac:(lia)). rewrite !Nat.add_0_r in P0. rewrite P0, !P by lia. reflexivity.
Qed.

Lemma drawn_mzd_ok : forall n m, 0 < n -> n <= 64 -> okm n n (drawn_mzd n m) /\
  feq n (bitat (drawn_mzd n m)) (fun i j => N.testbit (word_at fair_rnd (3 * (m + i))) (N.of_nat j)).
Proof.
  intros n m Hn H64. set (w := fun i => num n (fun k => N.testbit (word_at fair_rnd (3 * (m + i))) (N.of_nat (n - 1 - k)))).
  assert (T : forall i, i < n -> nth i (mrows (drawn_mzd n m)) [] = [w i]).
  { intros i Hi. unfold drawn_mzd. cbn [mrows]. rewrite (nth_indep _ [] ((fun i => [w i]) 0)) by (rewrite map_length, seq_length; exact Hi).
    rewrite (map_nth (fun i => [w i])), seq_nth by exact Hi. reflexivity. }
  assert (B : forall i b, tb (w i) b = Nat.ltb b n && tb (word_at fair_rnd (3 * (m + i))) b).
  { intros i b. unfold w. rewrite tb_num. destruct (Nat.ltb_spec b n); [|reflexivity]. cbn [andb]. unfold tb. do 2 f_equal. lia. }
  split.
  - refine (conj eq_refl (conj eq_refl (conj _ _))); [unfold drawn_mzd; cbn [mrows]; rewrite map_length; apply seq_length|].
    intros i Hi. rewrite T by exact Hi. split; [unfold wwidth; cbn [length]; lia|]. intros k b Hb. destruct k as [|k].
    + cbn [rw nth] in Hb. unfold rw in Hb. cbn [nth] in Hb. rewrite B in Hb. destruct (Nat.ltb_spec b n); [lia|discriminate].
    + unfold rw in Hb. cbn [nth] in Hb. destruct k; rewrite tb_0 in Hb; discriminate.
  - intros i j Hi Hj. unfold bitat. rewrite T by exact Hi. rewrite rowbit_tb. rewrite Nat.div_small, Nat.mod_small by lia.
    unfold rw. cbn [nth]. rewrite B. destruct (Nat.ltb_spec j n); [reflexivity|lia].
Qed.

Lemma fair_by_check : forall n, 0 < n -> n <= 64 ->
  forallb (fun m => match IsMatGf2Invertible (drawn_mzd n m) with Ok b => b | UB => false end) (seq 0 32) = true ->
  fair 0 n fair_rnd.
Proof.
  intros n Hn H64 HC s Hs. exists 0. split; [lia|]. rewrite forallb_forall in HC.
  assert (L : In (s / 3 mod 32) (seq 0 32)) by (apply in_seq; lia). specialize (HC _ L).
  destruct (drawn_mzd_ok n (s / 3 mod 32) Hn H64) as [K1 K2].
  destruct (wp_exists _ _ _ (naive_invertible n _ K1 Hn)) as (b & E & HB). rewrite E in HC. subst b.
  apply (invertible_ext n (bitat (drawn_mzd n (s / 3 mod 32)))); [|apply HB; reflexivity]. rewrite K2.
  intros i j Hi Hj. unfold drawn, draw_pos. replace ((n + 63) / 64) with 1 by lia. rewrite !Nat.mul_1_r, (Nat.div_small j 64), (Nat.mod_small j 64) by lia.
  rewrite Nat.mul_0_l, !Nat.add_0_r. rewrite fair_periodic by exact Hs. reflexivity.
Qed.
Lemma fair8 : fair 0 8 fair_rnd.
Proof. apply fair_by_check; [lia|lia|vm_compute; reflexivity]. Qed.
Lemma fair32 : fair 0 32 fair_rnd.
Proof. apply fair_by_check; [lia|lia|vm_compute; reflexivity]. Qed.
(** an environment with these random numbers *)
Definition fair_env : menv := mkenv 8 (fun _ => repeat (2 ^ 64 - 1)%N 64) fair_rnd ModelSM4.UL64 (fun _ => 7%N).
Lemma fair_env_ok : env_ok fair_env.
Proof. intros b. split; [reflexivity|]. intros w H. apply repeat_spec in H. subst w. reflexivity. Qed.
