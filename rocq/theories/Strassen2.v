(** Linear combinations of quarters, and the rest of a product cut into quarters: ModelStrassen.v *)
From Coq Require Import Arith NArith ZArith List Bool Lia ZifyNat Btauto.
From Verif Require Import Base Spec LinAlg ModelM4ri SpecM4ri M4ri1 M4riD ModelM4ri2 M4ri14 M4ri16 ModelStrassen Strassen1.
Import ListNotations.
Local Open Scope nat_scope.
#[local] Ltac Zify.zify_post_hook ::= Z.to_euclidean_division_equations.

Lemma fmul_ext2 : forall k A A' B B' i i' j j', (forall l, l < k -> A i l = A' i' l) -> (forall l, l < k -> B l j = B' l j') ->
  fmul k A B i j = fmul k A' B' i' j'.
Proof. intros k A A' B B' i i' j j' H1 H2. unfold fmul. apply xsum_ext. intros l Hl. rewrite H1, H2 by exact Hl. reflexivity. Qed.

(** Quarter x = 0, 1, 2, 3 of M: 11, 12, 21, 22 *)
Definition qf (M : fmat) (r c : nat) (x : nat) : fmat := fun i j => M (r * (x / 2) + i) (c * (x mod 2) + j).
Definition comb (f : nat -> fmat) (v : nat -> bool) : fmat := fun i j => xsum 4 (fun x => v x && f x i j).
Definition comb2 (k : nat) (a b : nat -> fmat) (u : nat -> nat -> bool) : fmat := fun i j =>
  xsum 4 (fun x => xsum 4 (fun y => u x y && fmul k (a x) (b y) i j)).

Lemma fmul_comb : forall k a b v w i j, fmul k (comb a v) (comb b w) i j = comb2 k a b (fun x y => v x && w y) i j.
Proof.
  intros k a b v w i j. unfold comb2, comb, fmul.
  transitivity (xsum k (fun l => xsum 4 (fun x => xsum 4 (fun y => (v x && w y) && (a x i l && b y l j))))).
  - apply xsum_ext. intros l _. rewrite <- xsum_andb_r. apply xsum_ext. intros x _.
    rewrite <- xsum_andb_l. apply xsum_ext. intros y _. btauto.
  - rewrite xsum_swap. apply xsum_ext. intros x _. rewrite xsum_swap. apply xsum_ext. intros y _.
    apply xsum_andb_l.
Qed.
Lemma comb_xor : forall f v w i j, comb f (fun x => xorb (v x) (w x)) i j = xorb (comb f v i j) (comb f w i j).
Proof. intros f v w i j. unfold comb. rewrite <- xsum_xorb. apply xsum_ext. intros x _. btauto. Qed.
Lemma comb2_xor : forall k a b u u' i j,
  comb2 k a b (fun x y => xorb (u x y) (u' x y)) i j = xorb (comb2 k a b u i j) (comb2 k a b u' i j).
Proof.
  intros k a b u u' i j. unfold comb2. rewrite <- xsum_xorb. apply xsum_ext. intros x _.
  rewrite <- xsum_xorb. apply xsum_ext. intros y _. btauto.
Qed.

(** W is the combination v of the quarters f *)
Definition lin (m k : nat) (f : nat -> fmat) (v : nat -> bool) (W : mzd) : Prop :=
  okm m k W /\ forall i j, i < m -> j < k -> bitat W i j = comb f v i j.
(** W is z plus the combination u of the products of quarters *)
Definition cin (m k n : nat) (a b : nat -> fmat) (z : fmat) (u : nat -> nat -> bool) (W : mzd) : Prop :=
  okm m n W /\ forall i j, i < m -> j < n -> bitat W i j = xorb (z i j) (comb2 k a b u i j).

Lemma wp_lin_add : forall m k f v w C0 X Y (Q : mzd -> Prop), okm m k C0 -> lin m k f v X -> lin m k f w Y ->
  (forall M, lin m k f (fun x => xorb (v x) (w x)) M -> Q M) -> wp (add_into C0 X Y) Q.
Proof.
  intros m k f v w C0 X Y Q H0 [HX EX] [HY EY] HQ. apply (wp_add_into m k); auto. intros M HM E. apply HQ.
  split; [exact HM|]. intros i j Hi Hj. rewrite E, EX, EY by assumption. symmetry. apply comb_xor.
Qed.
Lemma wp_cin_add : forall m k n a b z z' u u' C0 X Y (Q : mzd -> Prop), okm m n C0 -> cin m k n a b z u X -> cin m k n a b z' u' Y ->
  (forall M, cin m k n a b (fun i j => xorb (z i j) (z' i j)) (fun x y => xorb (u x y) (u' x y)) M -> Q M) -> wp (add_into C0 X Y) Q.
Proof.
  intros m k n a b z z' u u' C0 X Y Q H0 [HX EX] [HY EY] HQ. apply (wp_add_into m n); auto. intros M HM E. apply HQ.
  split; [exact HM|]. intros i j Hi Hj. rewrite E, EX, EY, comb2_xor by assumption. btauto.
Qed.

Definition fzero : fmat := fun _ _ => false.
Lemma mspec_mul : forall m k n a b v w C X Y M, lin m k a v X -> lin k n b w Y -> mspec true m k n C X Y M ->
  cin m k n a b fzero (fun x y => v x && w y) M.
Proof.
  intros m k n a b v w C X Y M [HX EX] [HY EY] [HM E]. split; [exact HM|]. intros i j Hi Hj. rewrite E by assumption.
  rewrite (fmul_ext2 k _ (comb a v) _ (comb b w) i i j j) by auto. rewrite fmul_comb. reflexivity.
Qed.
Lemma mspec_addmul : forall m k n a b v w z u C X Y M, lin m k a v X -> lin k n b w Y -> cin m k n a b z u C ->
  mspec false m k n C X Y M -> cin m k n a b z (fun x y => xorb (u x y) (v x && w y)) M.
Proof.
  intros m k n a b v w z u C X Y M [HX EX] [HY EY] [HC EC] [HM E]. split; [exact HM|]. intros i j Hi Hj. rewrite E by assumption.
  rewrite (fmul_ext2 k _ (comb a v) _ (comb b w) i i j j) by auto. rewrite fmul_comb, comb2_xor.
  unfold kept. cbn [negb andb]. rewrite EC by assumption. btauto.
Qed.

(** ** Quarters *)
Lemma comb_single : forall f x i j, x < 4 -> comb f (Nat.eqb x) i j = f x i j.
Proof.
  intros f x i j Hx. unfold comb. cbn [xsum].
  destruct x as [|[|[|[|]]]]; try lia; cbn [Nat.eqb andb]; btauto.
Qed.

Section Quarters.
Variables (R C r c : nat) (M : mzd).
Hypothesis HM : okd R C M.
Hypothesis Hc : c mod 64 = 0.
Hypothesis HR : 2 * r <= R.
Hypothesis HC : 2 * c <= C.

Lemma wp_quarter : forall (Q : mzd * mzd * mzd * mzd -> Prop),
  (forall M11 M12 M21 M22, lin r c (qf (bitat M) r c) (Nat.eqb 0) M11 -> lin r c (qf (bitat M) r c) (Nat.eqb 1) M12 ->
     lin r c (qf (bitat M) r c) (Nat.eqb 2) M21 -> lin r c (qf (bitat M) r c) (Nat.eqb 3) M22 -> Q (M11, M12, M21, M22)) ->
  wp (quarter M r c) Q.
Proof.
  intros Q HQ. unfold quarter.
  apply wp_bind, (wp_winw R C M _ _ _ _ r c); [exact HM|lia|lia|lia|lia|lia|lia|]. intros W1 O1 E1.
  apply wp_bind, (wp_winw R C M _ _ _ _ r c); [exact HM|lia|lia|lia|lia|lia|lia|]. intros W2 O2 E2.
  apply wp_bind, (wp_winw R C M _ _ _ _ r c); [exact HM|lia|lia|lia|lia|lia|lia|]. intros W3 O3 E3.
  apply wp_bind, (wp_winw R C M _ _ _ _ r c); [exact HM|lia|lia|lia|lia|lia|lia|]. intros W4 O4 E4.
  apply wp_ok, HQ; (split; [assumption|]); intros i j Hi Hj; rewrite comb_single by lia; unfold qf.
  - rewrite E1 by assumption. f_equal; lia.
  - rewrite E2 by assumption. change (1 / 2) with 0. change (1 mod 2) with 1. f_equal; lia.
  - rewrite E3 by assumption. change (2 / 2) with 1. change (2 mod 2) with 0. f_equal; lia.
  - rewrite E4 by assumption. change (3 / 2) with 1. change (3 mod 2) with 1. f_equal; lia.
Qed.
End Quarters.

Section Unquarter.
Variables (R C r c : nat) (M : mzd).
Hypothesis HM : okm R C M.
Hypothesis Hc : c mod 64 = 0.
Hypothesis HR : 2 * r <= R.
Hypothesis HC : 2 * c <= C.

Lemma unquarter_ok : forall M11 M12 M21 M22, okm r c M11 -> okm r c M12 -> okm r c M21 -> okm r c M22 ->
  let U := unquarter M M11 M12 M21 M22 r c in
  okm R C U /\
  (forall i j, i < R -> j < C -> 2 * r <= i \/ 2 * c <= j -> bitat U i j = bitat M i j) /\
  (forall i j, i < 2 * r -> j < 2 * c -> bitat U i j =
     if Nat.ltb i r then if Nat.ltb j c then bitat M11 i j else bitat M12 i (j - c)
     else if Nat.ltb j c then bitat M21 (i - r) j else bitat M22 (i - r) (j - c)).
Proof.
  intros M11 M12 M21 M22 O1 O2 O3 O4. cbv zeta. unfold unquarter.
  destruct (put_ok R C M M11 0 0 r c HM O1 ltac:(split; lia) ltac:(lia)) as [P1 E1].
  destruct (put_ok R C _ M12 0 c r c P1 O2 ltac:(split; lia) ltac:(lia)) as [P2 E2].
  destruct (put_ok R C _ M21 r 0 r c P2 O3 ltac:(split; lia) ltac:(lia)) as [P3 E3].
  destruct (put_ok R C _ M22 r c r c P3 O4 ltac:(split; lia) ltac:(lia)) as [P4 E4].
  split; [exact P4|]. split.
  - intros i j Hi Hj H. rewrite E4, E3, E2, E1 by assumption.
    destruct (Nat.leb_spec r i), (Nat.ltb_spec i (r + r)), (Nat.leb_spec c j), (Nat.ltb_spec j (c + c)),
      (Nat.leb_spec 0 i), (Nat.ltb_spec i (0 + r)), (Nat.leb_spec 0 j), (Nat.ltb_spec j (0 + c)); cbn [andb]; try reflexivity; lia.
  - intros i j Hi Hj. rewrite E4, E3, E2, E1 by lia. rewrite !Nat.sub_0_r.
    destruct (Nat.leb_spec r i), (Nat.ltb_spec i (r + r)), (Nat.leb_spec c j), (Nat.ltb_spec j (c + c)),
      (Nat.leb_spec 0 i), (Nat.ltb_spec i (0 + r)), (Nat.leb_spec 0 j), (Nat.ltb_spec j (0 + c)),
      (Nat.ltb_spec i r), (Nat.ltb_spec j c); cbn [andb]; try reflexivity; lia.
Qed.
End Unquarter.

(** What the four quarters of the product are *)
Definition target_u (bi bj : nat) : nat -> nat -> bool := fun x y =>
  Nat.eqb x (2 * bi) && Nat.eqb y bj || Nat.eqb x (2 * bi + 1) && Nat.eqb y (2 + bj).
Definition same_u (u u' : nat -> nat -> bool) : Prop := forall x y, x < 4 -> y < 4 -> u x y = u' x y.
Lemma comb2_ext : forall k a b u u' i j, same_u u u' -> comb2 k a b u i j = comb2 k a b u' i j.
Proof.
  intros k a b u u' i j H. unfold comb2. apply xsum_ext. intros x Hx. apply xsum_ext. intros y Hy. rewrite H by assumption. reflexivity.
Qed.

Lemma block_product : forall A B r k c bi bj i j, bi < 2 -> bj < 2 ->
  comb2 k (qf A r k) (qf B k c) (target_u bi bj) i j = fmul (2 * k) A B (r * bi + i) (c * bj + j).
Proof.
  intros A B r k c bi bj i j Hi Hj.
  transitivity (xorb (fmul k (qf A r k (2 * bi)) (qf B k c bj) i j) (fmul k (qf A r k (2 * bi + 1)) (qf B k c (2 + bj)) i j)).
  - unfold comb2. cbn [xsum]. destruct bi as [|[|]]; [| |lia]; (destruct bj as [|[|]]; [| |lia]);
      unfold target_u; cbn [Nat.eqb Nat.mul Nat.add andb orb]; btauto.
  - replace (2 * k) with (k + k) by lia. unfold fmul. rewrite xsum_add. f_equal; apply xsum_ext; intros l Hl; unfold qf.
    + replace (2 * bi / 2) with bi by lia. replace (bj / 2) with 0 by lia. replace ((2 * bi) mod 2) with 0 by lia.
      replace (bj mod 2) with bj by lia. f_equal; f_equal; lia.
    + replace ((2 * bi + 1) / 2) with bi by lia. replace ((2 + bj) / 2) with 1 by lia. replace ((2 * bi + 1) mod 2) with 1 by lia.
      replace ((2 + bj) mod 2) with bj by lia. f_equal; f_equal; lia.
Qed.

(** C1 is C with the product of the parts cut into quarters *)
Definition inner (clear : bool) (m n m2 k2 n2 : nat) (C A B C1 : mzd) : Prop :=
  okm m n C1 /\
  (forall i j, i < m -> j < n -> m2 <= i \/ n2 <= j -> bitat C1 i j = bitat C i j) /\
  (forall i j, i < m2 -> j < n2 -> bitat C1 i j = xorb (kept clear C i j) (fmul k2 (bitat A) (bitat B) i j)).

Lemma inner_quarters : forall clear m n r s c C A B C11 C12 C21 C22 u11 u12 u21 u22 z11 z12 z21 z22,
  okm m n C -> c mod 64 = 0 -> 2 * r <= m -> 2 * c <= n ->
  let a := qf (bitat A) r s in let b := qf (bitat B) s c in let z := qf (kept clear C) r c in
  cin r s c a b z11 u11 C11 -> cin r s c a b z12 u12 C12 -> cin r s c a b z21 u21 C21 -> cin r s c a b z22 u22 C22 ->
  same_u u11 (target_u 0 0) -> same_u u12 (target_u 0 1) -> same_u u21 (target_u 1 0) -> same_u u22 (target_u 1 1) ->
  (forall i j, z11 i j = z 0 i j) -> (forall i j, z12 i j = z 1 i j) -> (forall i j, z21 i j = z 2 i j) -> (forall i j, z22 i j = z 3 i j) ->
  inner clear m n (2 * r) (2 * s) (2 * c) C A B (unquarter C C11 C12 C21 C22 r c).
Proof.
  intros clear m n r s c C A B C11 C12 C21 C22 u11 u12 u21 u22 z11 z12 z21 z22 HC Hc Hr Hcn a b z
    [O1 E1] [O2 E2] [O3 E3] [O4 E4] U1 U2 U3 U4 Z1 Z2 Z3 Z4.
  destruct (unquarter_ok m n r c C HC Hc Hr Hcn C11 C12 C21 C22 O1 O2 O3 O4) as (P1 & P2 & P3).
  split; [exact P1|]. split; [exact P2|]. intros i j Hi Hj. rewrite P3 by assumption. unfold a, b, z in *.
  destruct (Nat.ltb_spec i r) as [Hi'|Hi'], (Nat.ltb_spec j c) as [Hj'|Hj'].
  - rewrite E1, Z1, (comb2_ext _ _ _ _ _ _ _ U1), block_product by lia. unfold qf. f_equal; f_equal; lia.
  - rewrite E2, Z2, (comb2_ext _ _ _ _ _ _ _ U2), block_product by lia. unfold qf. change (1 / 2) with 0. change (1 mod 2) with 1. f_equal; f_equal; lia.
  - rewrite E3, Z3, (comb2_ext _ _ _ _ _ _ _ U3), block_product by lia. unfold qf. change (2 / 2) with 1. change (2 mod 2) with 0. f_equal; f_equal; lia.
  - rewrite E4, Z4, (comb2_ext _ _ _ _ _ _ _ U4), block_product by lia. unfold qf. change (3 / 2) with 1. change (3 mod 2) with 1. f_equal; f_equal; lia.
Qed.

(** ** The rest *)
Section Rest.
Variables (kcache : nat) (junk : nat -> list N).
Hypothesis Hj : junk_ok junk.
Variables (clear : bool) (m k n m2 k2 n2 : nat) (C A B : mzd).
Hypothesis HC : okm m n C.
Hypothesis HA : okd m k A.
Hypothesis HB : okm k n B.
Hypothesis Hk : 1 <= k.
Hypothesis Hm2 : m2 <= m.
Hypothesis Hk2 : k2 <= k.
Hypothesis Hn2 : n2 <= n.
Hypothesis Hcl : clear = true -> 1 <= n2.
Hypothesis Mk : k2 mod 64 = 0.
Hypothesis Mn : n2 mod 64 = 0.
Hypothesis F1 : fits k n.
Hypothesis F2 : fits n k.

Notation full := (fmul k (bitat A) (bitat B)).

Lemma wp_rest : forall C1 (Q : mzd -> Prop), inner clear m n m2 k2 n2 C A B C1 ->
  (forall M, mspec clear m k n C A B M -> Q M) -> wp (rest kcache junk clear C1 A B m2 k2 n2) Q.
Proof.
  intros C1 Q (O1 & E1 & E1') HQ. unfold rest. pose proof HA as (A1 & A2 & _). pose proof HB as (B1 & B2 & _).
  rewrite A1, A2, B2. cbv zeta.
  (* the last columns *)
  apply wp_bind.
  apply wp_mono with (P := fun C2 => okm m n C2 /\
    (forall i j, i < m -> n2 <= j -> j < n -> bitat C2 i j = xorb (kept clear C i j) (full i j)) /\
    (forall i j, i < m -> j < n2 -> bitat C2 i j = bitat C1 i j)).
  { destruct (Nat.ltb_spec n2 n) as [H|H].
    2:{ apply wp_ok. split; [exact O1|]. split; [intros; lia|reflexivity]. }
    apply wp_bind, (wp_win k n B _ _ _ _ k (n - n2)); [exact HB|split; lia|lia|lia|lia|]. intros Bw OB EB.
    apply wp_bind, (wp_win m n C1 _ _ _ _ m (n - n2)); [exact O1|split; lia|lia|lia|lia|]. intros Cw OC EC.
    apply wp_bind, (wp_m4rm kcache junk Hj clear m k (n - n2)); auto; [lia|apply (fits_le k n); auto; lia|apply (fits_le n k); auto; lia|].
    intros W [OW EW]. apply wp_ok.
    destruct (put_ok m n C1 W 0 n2 m (n - n2) O1 OW ltac:(split; lia) ltac:(lia)) as [OP EP].
    split; [exact OP|]. split.
    - intros i j Hi Hj1 Hj2. rewrite EP by assumption.
      destruct (Nat.leb_spec 0 i), (Nat.ltb_spec i (0 + m)), (Nat.leb_spec n2 j), (Nat.ltb_spec j (n2 + (n - n2))); try lia. cbn [andb].
      rewrite Nat.sub_0_r, EW by lia. f_equal.
      + unfold kept. rewrite EC by lia. rewrite E1 by lia. do 2 f_equal. lia.
      + apply fmul_ext2; [reflexivity|]. intros l Hl. rewrite EB by lia. f_equal. lia.
    - intros i j Hi Hj1. rewrite EP by lia. destruct (Nat.leb_spec n2 j); [lia|]. rewrite !andb_false_r. reflexivity. }
  intros C2 (O2 & E2 & E2').
  (* the last rows *)
  apply wp_bind.
  apply wp_mono with (P := fun C3 => okm m n C3 /\
    (forall i j, i < m -> j < n -> m2 <= i \/ n2 <= j -> bitat C3 i j = xorb (kept clear C i j) (full i j)) /\
    (forall i j, i < m2 -> j < n2 -> bitat C3 i j = bitat C1 i j)).
  { destruct (Nat.ltb_spec m2 m) as [H|H].
    2:{ apply wp_ok. split; [exact O2|]. split; [|intros; apply E2'; lia]. intros i j Hi Hj' [H'|H']; [lia|apply E2; assumption]. }
    apply wp_bind, (wp_wind m k A _ _ _ _ (m - m2) k); [exact HA|lia|lia|lia|lia|lia|]. intros Aw OA _ EA.
    apply wp_bind, (wp_win k n B _ _ _ _ k n2); [exact HB|split; lia|lia|lia|lia|]. intros Bw OB EB.
    apply wp_bind, (wp_win m n C2 _ _ _ _ (m - m2) n2); [exact O2|split; lia|lia|lia|lia|]. intros Cw OC EC.
    apply wp_bind, (wp_m4rm kcache junk Hj clear (m - m2) k n2); auto; [apply (fits_le k n); auto; lia|apply (fits_le n k); auto; lia|].
    intros W [OW EW]. apply wp_ok.
    destruct (put_ok m n C2 W m2 0 (m - m2) n2 O2 OW ltac:(split; lia) ltac:(lia)) as [OP EP].
    split; [exact OP|]. split.
    - intros i j Hi Hj1 H3. rewrite EP by assumption.
      destruct (Nat.leb_spec 0 j), (Nat.ltb_spec i (m2 + (m - m2))); try lia.
      destruct (Nat.leb_spec m2 i), (Nat.ltb_spec j (0 + n2)); cbn [andb]; try (apply E2; lia); try lia.
      rewrite Nat.sub_0_r, EW by lia. f_equal.
      + unfold kept. rewrite EC, E2', E1 by lia. do 2 f_equal. lia.
      + apply fmul_ext2; intros l Hl; [rewrite EA by lia; f_equal; lia|rewrite EB by lia; reflexivity].
    - intros i j Hi Hj1. rewrite EP by lia. destruct (Nat.leb_spec m2 i); [lia|]. cbn [andb]. apply E2'; lia. }
  intros C3 (O3 & E3 & E3').
  (* the last inner columns *)
  assert (Split : forall i j, full i j = xorb (fmul k2 (bitat A) (bitat B) i j) (xsum (k - k2) (fun l => bitat A i (k2 + l) && bitat B (k2 + l) j))).
  { intros i j. unfold fmul. replace k with (k2 + (k - k2)) at 1 by lia. apply xsum_add. }
  destruct (Nat.ltb_spec k2 k) as [H|H].
  2:{ apply wp_ok, HQ. split; [exact O3|]. intros i j Hi Hj'.
      destruct (Nat.lt_ge_cases i m2); [|apply E3; auto]. destruct (Nat.lt_ge_cases j n2); [|apply E3; auto].
      rewrite E3', E1' by assumption. do 2 f_equal. lia. }
  apply wp_bind, (wp_wind m k A _ _ _ _ m2 (k - k2)); [exact HA|lia|lia|lia|lia|lia|]. intros Aw OA _ EA.
  apply wp_bind, (wp_win k n B _ _ _ _ (k - k2) n2); [exact HB|split; lia|lia|lia|lia|]. intros Bw OB EB.
  apply wp_bind, (wp_win m n C3 _ _ _ _ m2 n2); [exact O3|split; lia|lia|lia|lia|]. intros Cw OC EC.
  apply wp_bind, (wp_addmul kcache junk Hj m2 (k - k2) n2); auto; [lia|apply (fits_le k n); auto; lia|apply (fits_le n k); auto; lia|].
  intros W [OW EW]. apply wp_ok, HQ.
  destruct (put_ok m n C3 W 0 0 m2 n2 O3 OW ltac:(split; lia) ltac:(lia)) as [OP EP].
  split; [exact OP|]. intros i j Hi Hj'. rewrite EP by assumption.
  destruct (Nat.leb_spec 0 i), (Nat.leb_spec 0 j); try lia.
  destruct (Nat.ltb_spec i (0 + m2)), (Nat.ltb_spec j (0 + n2)); cbn [andb]; try (apply E3; lia).
  rewrite !Nat.sub_0_r, EW by lia. unfold kept at 1. cbn [negb andb]. rewrite EC by lia. cbn [Nat.add]. rewrite E3', E1' by lia.
  rewrite Split, xorb_assoc. do 2 f_equal. unfold fmul. apply xsum_ext. intros l Hl. rewrite EA, EB by lia. reflexivity.
Qed.
End Rest.
