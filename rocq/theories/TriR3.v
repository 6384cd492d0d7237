(** Inversion of triangular matrices, first part: rows in the course of the elimination. *)
From Coq Require Import Arith NArith ZArith List Bool Lia ZifyNat.
From Verif Require Import Base Spec LinAlg ModelM4ri SpecM4ri M4ri1 M4ri3 M4ri4 M4ri19 ModelM4ri2 SpecM4ri2 ModelTri ModelPle Ple3 ModelTriR TriR1.
Import ListNotations.
#[local] Ltac Zify.zify_post_hook ::= Z.to_euclidean_division_equations.

Section Rows.
Variables (n : nat) (U : fmat).

(** Row j after the pivots up to p - 1: to the left of p that row of the inverse of the leading p x p
    matrix, to the right its product with U *)
Definition prod (p : nat) (f : nat -> bool) (y : nat) : bool := xsum p (fun k => f k && U k y).
Definition rowst (j p : nat) (f : nat -> bool) : Prop :=
  j < p /\ p <= n /\ f j = true /\ (forall y, y < j -> f y = false) /\
  (forall y, p <= y -> y < n -> f y = prod p f y) /\ (forall y, y < p -> prod p f y = Nat.eqb y j).

Lemma rowst_ext : forall j p f g, rowst j p f -> (forall y, y < n -> g y = f y) -> rowst j p g.
Proof.
  intros j p f g (H1 & H2 & H3 & H4 & H5 & H6) E.
  assert (EP : forall y, prod p g y = prod p f y) by (intros y; apply xsum_ext; intros k Hk; rewrite E by lia; reflexivity).
  split; [exact H1|]. split; [exact H2|]. split; [rewrite E by lia; exact H3|].
  split; [intros y Hy; rewrite E by lia; apply H4; exact Hy|].
  split; [intros y Hy Hn; rewrite E, EP by lia; apply H5; assumption|intros y Hy; rewrite EP; apply H6; exact Hy].
Qed.

Lemma rowst_init : forall j, (forall j, j < n -> forall y, y < j -> U j y = false) -> (forall j, j < n -> U j j = true) -> j < n -> rowst j (j + 1) (U j).
Proof.
  intros j HU0 HU1 Hj. assert (E : forall y, prod (j + 1) (U j) y = U j y).
  { intros y. unfold prod. rewrite (xsum_single (j + 1) j); [rewrite HU1 by exact Hj; reflexivity|lia|].
    intros k Hk Hne. rewrite HU0 by lia. reflexivity. }
  split; [lia|]. split; [lia|]. split; [apply HU1; exact Hj|]. split; [intros; apply HU0; assumption|].
  split; [intros; rewrite E; reflexivity|]. intros y Hy. rewrite E. destruct (Nat.eqb_spec y j) as [->|]; [apply HU1; exact Hj|apply HU0; lia].
Qed.

(** Row j, eliminated up to r, has its entries r to r + m - 1 eliminated by rows that are eliminated up
    to r + m *)
Lemma advance : forall j r m f g f', rowst j r f -> r + m <= n -> (forall l, l < m -> rowst (r + l) (r + m) (g l)) ->
  (forall y, y < n -> f' y = if Nat.ltb y r then f y else
     xorb (xorb (f y) (xsum m (fun l => f (r + l) && g l y))) (Nat.ltb y (r + m) && f y)) ->
  rowst j (r + m) f'.
Proof.
  intros j r m f g f' (H1 & H2 & H3 & H4 & H5 & H6) Hn G E.
  assert (E1 : forall k, k < r + m -> f' k = xorb (Nat.ltb k r && f k) (xsum m (fun l => f (r + l) && g l k))).
  { intros k Hk. rewrite E by lia. destruct (Nat.ltb_spec k r); cbn [andb].
    - rewrite xsum_false; [rewrite xorb_false_r; reflexivity|]. intros l Hl. destruct (G l Hl) as (_ & _ & _ & Z & _). rewrite Z by lia. apply andb_false_r.
    - destruct (Nat.ltb_spec k (r + m)); [|lia]. cbn [andb]. destruct (f k), (xsum m (fun l => f (r + l) && g l k)); reflexivity. }
  assert (EP : forall y, prod (r + m) f' y = xorb (prod r f y) (xsum m (fun l => f (r + l) && prod (r + m) (g l) y))).
  { intros y. unfold prod.
    rewrite (xsum_ext (r + m) _ (fun k => xorb (Nat.ltb k r && f k && U k y) (xsum m (fun l => f (r + l) && (g l k && U k y))))).
    - rewrite xsum_xorb. f_equal.
      + rewrite (xsum_widen r (r + m)); [|lia|intros k Hk _; destruct (Nat.ltb_spec k r); [lia|reflexivity]].
        apply xsum_ext. intros k Hk. destruct (Nat.ltb_spec k r); [reflexivity|lia].
      + rewrite xsum_swap. apply xsum_ext. intros l _. apply xsum_andb_l.
    - intros k Hk. rewrite E1 by exact Hk. rewrite (xsum_ext m (fun l => f (r + l) && (g l k && U k y)) (fun l => (f (r + l) && g l k) && U k y)) by (intros; apply andb_assoc).
      rewrite xsum_andb_r. destruct (Nat.ltb k r && f k), (xsum m (fun l => f (r + l) && g l k)), (U k y); reflexivity. }
  split; [lia|]. split; [exact Hn|]. split.
  { rewrite E by lia. destruct (Nat.ltb_spec j r); [exact H3|lia]. }
  split. { intros y Hy. rewrite E by lia. destruct (Nat.ltb_spec y r); [apply H4; exact Hy|lia]. }
  split.
  - intros y Hy Hyn. rewrite E, EP by exact Hyn. destruct (Nat.ltb_spec y r); [lia|]. destruct (Nat.ltb_spec y (r + m)); [lia|]. cbn [andb].
    rewrite xorb_false_r. f_equal; [apply H5; lia|]. apply xsum_ext. intros l Hl. f_equal. destruct (G l Hl) as (_ & _ & _ & _ & Z & _). apply Z; assumption.
  - intros y Hy. rewrite EP.
    rewrite (xsum_ext m _ (fun l => f (r + l) && Nat.eqb y (r + l))).
    2:{ intros l Hl. f_equal. destruct (G l Hl) as (_ & _ & _ & _ & _ & Z). apply Z. exact Hy. }
    destruct (Nat.lt_ge_cases y r) as [Hr|Hr].
    + rewrite xsum_false; [rewrite xorb_false_r; apply H6; exact Hr|]. intros l _. destruct (Nat.eqb_spec y (r + l)); [lia|apply andb_false_r].
    + rewrite (xsum_single m (y - r)); [|lia|intros l Hl Hne; destruct (Nat.eqb_spec y (r + l)); [lia|apply andb_false_r]].
      replace (r + (y - r)) with y by lia. rewrite Nat.eqb_refl, andb_true_r, <- H5 by lia. rewrite xorb_nilpotent. symmetry. apply Nat.eqb_neq. lia.
Qed.

(** All rows, with their progress *)
Definition st (p : nat -> nat) (A : mzd) : Prop := okm n n A /\ forall j, j < n -> rowst j (p j) (bitat A j).
Definition pg (lo e j : nat) : nat := if Nat.ltb j lo then lo else if Nat.ltb j e then e else j + 1.
Lemma st_ext : forall p q A, st p A -> (forall j, j < n -> q j = p j) -> st q A.
Proof. intros p q A [H1 H2] E. split; [exact H1|]. intros j Hj. rewrite E by exact Hj. apply H2. exact Hj. Qed.

Lemma trtri_sub_ok : forall lo i k A (Q : mzd -> Prop), lo <= i -> i + k <= n -> st (pg lo i) A ->
  (forall A', st (pg lo (i + k)) A' -> Q A') -> wp (trtri_sub A i lo k) Q.
Proof.
  intros lo i0 k A Q Hlo Hk HA HQ. unfold trtri_sub. apply (wp_for_up _ (fun i A => st (pg lo i) A)); [lia|exact HA| |exact HQ].
  clear A HA. intros i A Hi1 Hi2 HA.
  apply (wp_for_up _ (fun t A => st (fun j => if Nat.ltb j lo then lo else if Nat.ltb j t then S i else if Nat.ltb j i then i else j + 1) A)).
  - lia.
  - apply (st_ext _ _ _ HA). intros j Hj. unfold pg. destruct (Nat.ltb_spec j lo); [reflexivity|]. reflexivity.
  - clear A HA. intros t A Ht1 Ht2 [HA HR]. apply wp_bind, (wp_read_bit n n); [exact HA|lia|lia|].
    assert (F : forall A', okm n n A' -> (forall j y, j < n -> y < n -> bitat A' j y = if Nat.eqb j t && Nat.ltb i y then xorb (bitat A t y) (bitat A t i && bitat A i y) else bitat A j y) ->
      st (fun j => if Nat.ltb j lo then lo else if Nat.ltb j (S t) then S i else if Nat.ltb j i then i else j + 1) A').
    { intros A' HA' E. split; [exact HA'|]. intros j Hj. specialize (HR j Hj) as Hj'. cbv beta in Hj'. destruct (Nat.eq_dec j t) as [->|Hne].
      - destruct (Nat.ltb_spec t lo); [lia|]. destruct (Nat.ltb_spec t t); [lia|]. destruct (Nat.ltb_spec t i); [|lia]. destruct (Nat.ltb_spec t (S t)); [|lia].
        assert (Hi := HR i ltac:(lia)). cbv beta in Hi. destruct (Nat.ltb_spec i lo); [lia|]. destruct (Nat.ltb_spec i t); [lia|]. destruct (Nat.ltb_spec i i); [lia|].
        replace (S i) with (i + 1) by lia. apply (advance t i 1 (bitat A t) (fun _ => bitat A i)); [exact Hj'|lia| |].
        + intros l Hl. replace (i + l) with i by lia. exact Hi.
        + intros y Hy. rewrite E by lia. rewrite Nat.eqb_refl. cbn [andb xsum]. rewrite Nat.add_0_r. cbn [xorb].
          destruct (Nat.ltb_spec i y), (Nat.ltb_spec y i), (Nat.ltb_spec y (i + 1)); try lia; cbn [andb]; rewrite ?xorb_false_r; [destruct (bitat A t i && bitat A i y); reflexivity|reflexivity|].
          assert (y = i) by lia. subst y. destruct Hi as (_ & _ & Hd & _). rewrite Hd. destruct (bitat A t i); reflexivity.
      - assert (Ej : forall y, y < n -> bitat A' j y = bitat A j y).
        { intros y Hy. rewrite E by assumption. destruct (Nat.eqb_spec j t); [lia|reflexivity]. }
        apply (rowst_ext _ _ _ _ Hj') in Ej. destruct (Nat.ltb_spec j lo); [exact Ej|]. destruct (Nat.ltb_spec j t), (Nat.ltb_spec j (S t)); try lia; exact Ej. }
    rewrite (proj1 (proj2 HA)). destruct (bitat A t i) eqn:Eb; cbn [andb].
    + destruct (Nat.ltb_spec (i + 1) n).
      * apply (wp_row_add n n); [exact HA|lia|lia|lia|]. intros A' HA' E. apply F; [exact HA'|]. intros j y Hj Hy. rewrite E.
        destruct (Nat.eqb_spec j t); cbn [andb]; [|reflexivity]. destruct (Nat.leb_spec (i + 1) y), (Nat.ltb_spec i y); try lia; subst; reflexivity.
      * apply wp_ok, F; [exact HA|]. intros j y Hj Hy. destruct (Nat.ltb_spec i y); [lia|]. rewrite andb_false_r. reflexivity.
    + apply wp_ok, F; [exact HA|]. intros j y Hj Hy. rewrite xorb_false_r. destruct (Nat.eqb_spec j t); cbn [andb]; [subst; destruct (Nat.ltb i y)|]; reflexivity.
  - intros A' HA'. apply (st_ext _ _ _ HA'). intros j Hj. unfold pg. destruct (Nat.ltb_spec j lo); [reflexivity|].
    destruct (Nat.ltb_spec j i), (Nat.ltb_spec j (S i)); lia.
Qed.

(** The copy of rows: what _mzd_ple_to_e clears is zero already *)
Lemma ple_to_e_ok : forall A c k (Q : mzd -> Prop), okm n n A -> c + k <= n -> (forall l y, l < k -> y < c + l -> bitat A (c + l) y = false) ->
  (forall E, okm k n E -> (forall l y, l < k -> y < n -> bitat E l y = bitat A (c + l) y) -> Q E) -> wp (ple_to_e A c c k) Q.
Proof.
  intros A c k Q HA Hc HZ HQ. unfold ple_to_e. rewrite (proj1 (proj2 HA)). apply wp_bind, (wp_submatrix n n); [exact HA|lia|lia|lia|lia|left; reflexivity|].
  intros S0. rewrite Nat.sub_0_r. replace (c + k - c) with k by lia. intros HS ES.
  apply (wp_for_up _ (fun _ E => okm k n E /\ forall l y, l < k -> y < n -> bitat E l y = bitat A (c + l) y)); [lia|split; [exact HS|exact ES]| |intros E [H1 H2]; apply HQ; assumption].
  clear S0 HS ES. intros i E _ Hi HE.
  apply (wp_for_up _ (fun _ E => okm k n E /\ forall l y, l < k -> y < n -> bitat E l y = bitat A (c + l) y)); [lia|exact HE| |intros E'; exact (fun H => H)].
  clear E HE. intros t E _ Ht [HE EE]. cbv zeta. replace (c / 64 * 64 + 64 * t) with (64 * (c / 64 + t)) by lia.
  apply (clear_word_ok k n); [exact HE|exact Hi|lia|lia|lia|]. intros M' HM' EM. split; [exact HM'|]. intros l y Hl Hy. rewrite EM.
  destruct (Nat.eqb_spec l i); cbn [andb]; [|apply EE; assumption].
  destruct (Nat.leb_spec (64 * (c / 64 + t)) y); cbn [andb]; [|apply EE; assumption].
  destruct (Nat.ltb_spec y (64 * (c / 64 + t) + Nat.min (c + i - 64 * (c / 64 + t)) 64)); [|apply EE; assumption].
  subst l. symmetry. apply HZ; lia.
Qed.
End Rows.
