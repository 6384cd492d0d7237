(** Triangular systems: the steps that change rows of B *)
From Coq Require Import Arith NArith ZArith List Bool Lia ZifyNat.
From Verif Require Import Base Spec LinAlg ModelM4ri SpecM4ri M4ri1 M4riD M4ri2 M4ri3 M4ri4 M4ri5 ModelM4ri2 M4ri9 M4ri11 M4ri14 M4ri16 M4ri17 ModelStrassen ModelTri SpecTri.
Import ListNotations.
Local Open Scope nat_scope.
#[local] Ltac Zify.zify_post_hook ::= Z.to_euclidean_division_equations.

(** A sum over an interval *)
Lemma xsum_band : forall R c n g, c + n <= R ->
  xsum n (fun l => g (c + l)) = xsum R (fun k => (Nat.leb c k && Nat.ltb k (c + n)) && g k).
Proof.
  intros R c n g H. replace R with (c + (n + (R - c - n))) by lia. rewrite !xsum_add.
  rewrite (xsum_false c) by (intros k Hk; destruct (Nat.leb_spec c k); [lia|reflexivity]).
  rewrite (xsum_false (R - c - n)) by (intros k Hk; destruct (Nat.ltb_spec (c + (n + k)) (c + n)); [lia|rewrite andb_false_r; reflexivity]).
  rewrite xorb_false_r, xorb_false_l. apply xsum_ext. intros k Hk.
  destruct (Nat.leb_spec c (c + k)), (Nat.ltb_spec (c + k) (c + n)); lia || reflexivity.
Qed.

Section Sys.
Variables (R C : nat) (T : mzd) (B0 : fmat).
Hypothesis HT : okd R R T.

(** The columns of T that have been applied to the rows *)
Definition inv (ap : nat -> nat -> bool) (M : mzd) : Prop :=
  okm R C M /\ forall x t, x < R -> t < C -> xorb (bitat M x t) (xsum R (fun k => ap x k && (bitat T x k && bitat M k t))) = B0 x t.

Lemma inv_ext : forall ap ap' M, (forall x k, x < R -> k < R -> ap x k = ap' x k) -> inv ap M -> inv ap' M.
Proof.
  intros ap ap' M E [HM H]. split; [exact HM|]. intros x t Hx Ht. rewrite <- (H x t Hx Ht). f_equal.
  apply xsum_ext. intros k Hk. rewrite E by assumption. reflexivity.
Qed.

Lemma inv_step : forall ap nw ap' M M', okm R C M' -> inv ap M ->
  (forall x t, x < R -> t < C -> bitat M' x t = xorb (bitat M x t) (xsum R (fun k => nw x k && (bitat T x k && bitat M k t)))) ->
  (forall x k, x < R -> k < R -> ap' x k = ap x k || nw x k) -> (forall x k, x < R -> k < R -> ap x k && nw x k = false) ->
  (forall x k k', x < R -> k < R -> k' < R -> ap' x k = true -> nw k k' = false) -> inv ap' M'.
Proof.
  intros ap nw ap' M M' HM' [HM H] E A1 A2 A3. split; [exact HM'|]. intros x t Hx Ht. rewrite <- (H x t Hx Ht), E by assumption.
  rewrite (xsum_ext R (fun k => ap' x k && (bitat T x k && bitat M' k t))
             (fun k => xorb (ap x k && (bitat T x k && bitat M k t)) (nw x k && (bitat T x k && bitat M k t)))).
  - rewrite xsum_xorb. destruct (bitat M x t), (xsum R _), (xsum R _); reflexivity.
  - intros k Hk. specialize (A1 x k Hx Hk). specialize (A2 x k Hx Hk). destruct (ap' x k) eqn:Ea.
    + rewrite (E k t Hk Ht), (xsum_false R), xorb_false_r by (intros k' Hk'; rewrite (A3 x k k' Hx Hk Hk' Ea); reflexivity).
      destruct (ap x k), (nw x k), (bitat T x k), (bitat M k t); cbn in *; congruence.
    + destruct (ap x k), (nw x k); cbn in *; try discriminate; reflexivity.
Qed.

(** One row added to another *)
Lemma row_step : forall ap ap' M a b v (Q : mzd -> Prop), inv ap M -> 1 <= C -> a < R -> b < R -> v = bitat T a b ->
  (forall x k, x < R -> k < R -> ap' x k = ap x k || (Nat.eqb x a && Nat.eqb k b)) -> ap a b = false ->
  (forall x, x < R -> ap' x a = false) -> (forall M', inv ap' M' -> Q M') ->
  wp (if v : bool then combine_row M M a b else Ok M) Q.
Proof.
  intros ap ap' M a b v Q HI HC Ha Hb -> A1 A2 A3 HQ. pose proof HI as [HM _].
  assert (S : forall M', okm R C M' ->
    (forall x t, x < R -> t < C -> bitat M' x t = if Nat.eqb x a then xorb (bitat M a t) (bitat T a b && bitat M b t) else bitat M x t) -> inv ap' M').
  { intros M' HM' E. apply (inv_step ap (fun x k => Nat.eqb x a && Nat.eqb k b) ap' M M' HM' HI).
    - intros x t Hx Ht. rewrite E by assumption. destruct (Nat.eqb_spec x a) as [->|N].
      + cbn [andb]. rewrite (xsum_single R b).
        * rewrite Nat.eqb_refl. reflexivity.
        * exact Hb.
        * intros k Hk Nk. destruct (Nat.eqb_spec k b); [contradiction|reflexivity].
      + cbn [andb]. rewrite xsum_false by reflexivity. rewrite xorb_false_r. reflexivity.
    - exact A1.
    - intros x k Hx Hk. destruct (Nat.eqb_spec x a) as [->|]; [|apply andb_false_r]. destruct (Nat.eqb_spec k b) as [->|]; [|apply andb_false_r].
      rewrite A2. reflexivity.
    - intros x k k' Hx Hk Hk' Ea. destruct (Nat.eqb_spec k a) as [->|]; [|reflexivity]. rewrite A3 in Ea by exact Hx. discriminate. }
  destruct (bitat T a b) eqn:Ev.
  - apply (combine_row_ok R R C); auto. intros M' HM' E. apply HQ, S; [exact HM'|]. intros x t Hx Ht. rewrite E.
    destruct (Nat.eqb_spec x a); reflexivity.
  - apply wp_ok, HQ, S; [exact HM|]. intros x t _ _. destruct (Nat.eqb_spec x a) as [->|]; [cbn [andb]; rewrite xorb_false_r|]; reflexivity.
Qed.

(** ** Small systems *)

Definition reads (bit : nat -> nat -> res bool) (lo hi : nat) : Prop :=
  forall a b, lo <= a -> a < hi -> lo <= b -> b < hi -> wp (bit a b) (fun v => v = bitat T a b).

(** The columns below [p] have been applied to the rows from [q] on, the rows above are done *)
Definition apl (p q : nat) (x k : nat) : bool := Nat.ltb k (if Nat.ltb x q then x else p).
(** From below: the columns from [p] on have been applied to the rows above [q] *)
Definition apu (p q : nat) (x k : nat) : bool := if Nat.leb q x then Nat.ltb x k else Nat.leb p k.

Ltac bcase := repeat match goal with
  | |- context [if Nat.ltb ?a ?b then _ else _] => destruct (Nat.ltb_spec a b)
  | |- context [if Nat.leb ?a ?b then _ else _] => destruct (Nat.leb_spec a b)
  | |- context [if Nat.eqb ?a ?b then _ else _] => destruct (Nat.eqb_spec a b)
  | |- context [Nat.ltb ?a ?b] => destruct (Nat.ltb_spec a b)
  | |- context [Nat.leb ?a ?b] => destruct (Nat.leb_spec a b)
  | |- context [Nat.eqb ?a ?b] => destruct (Nat.eqb_spec a b)
  end; cbn [andb orb]; try lia; try reflexivity.

Lemma lower_rows_ok : forall bit M s n (Q : mzd -> Prop), 1 <= C -> s + n <= R -> reads bit s (s + n) -> inv (apl s s) M ->
  (forall M', inv (apl s (s + n)) M' -> Q M') -> wp (lower_rows bit M s n) Q.
Proof.
  intros bit M s n Q HC Hs HB HI HQ. unfold lower_rows.
  apply (wp_for_up _ (fun i M => inv (apl s (s + i)) M)); [lia|rewrite Nat.add_0_r; exact HI| |exact HQ].
  intros i M1 _ Hi H1.
  apply (wp_for_up _ (fun j M => inv (fun x k => if Nat.eqb x (s + i) then Nat.ltb k (s + j) else apl s (s + i) x k) M)); [lia| | |].
  - apply (inv_ext (apl s (s + i))); [|exact H1]. intros x k _ _. unfold apl. bcase.
  - intros j M2 _ Hj H2. apply wp_bind. eapply wp_mono; [apply HB; lia|]. intros v Ev.
    eapply (row_step _ _ M2 (s + i) (s + j) v); [exact H2|exact HC|lia|lia|exact Ev| | | |intros M3 H3; exact H3].
    + intros x k _ _. unfold apl. bcase.
    + cbn beta. rewrite Nat.eqb_refl. bcase.
    + intros x _. unfold apl. bcase.
  - intros M2 H2. eapply inv_ext; [|exact H2]. intros x k _ _. unfold apl. bcase.
Qed.

Lemma upper_rows_ok : forall bit M s n (Q : mzd -> Prop), 1 <= C -> s + n <= R -> reads bit s (s + n) -> inv (apu (s + n) (s + n)) M ->
  (forall M', inv (apu (s + n) s) M' -> Q M') -> wp (upper_rows bit M s n) Q.
Proof.
  intros bit M s n Q HC Hs HB HI HQ. unfold upper_rows.
  apply (wp_for_up _ (fun i M => inv (apu (s + n) (s + (n - i))) M)); [lia|rewrite Nat.sub_0_r; exact HI| |].
  - intros i M1 _ Hi H1. set (a := s + (n - i - 1)).
    apply (wp_for_up _ (fun j M => inv (fun x k => if Nat.eqb x a then Nat.ltb a k && Nat.ltb k (a + 1 + j) || Nat.leb (s + n) k
                                                   else apu (s + n) (s + (n - i)) x k) M)); [lia| | |].
    + apply (inv_ext (apu (s + n) (s + (n - i)))); [|exact H1]. intros x k _ _. unfold apu, a. bcase.
    + intros j M2 _ Hj H2. apply wp_bind. eapply wp_mono; [apply HB; unfold a; lia|]. intros v Ev. fold a.
      eapply (row_step _ _ M2 a (s + (n - i) + j) v); [exact H2|exact HC|unfold a; lia|lia|exact Ev| | | |intros M3 H3; exact H3].
      * intros x k _ _. unfold apu, a. bcase.
      * cbn beta. rewrite Nat.eqb_refl. unfold a. bcase.
      * intros x _. unfold apu, a. bcase.
    + intros M2 H2. eapply inv_ext; [|exact H2]. intros x k _ _. unfold apu, a. bcase.
  - intros M1 H1. apply HQ. replace (s + (n - n)) with s in H1 by lia. exact H1.
Qed.

Lemma reads_bit : forall lo hi, hi <= R -> reads (mzd_read_bit T) lo hi.
Proof. intros lo hi H a b _ Ha _ Hb. apply (wp_read_bitd R R); [exact HT|lia|lia|]. reflexivity. Qed.
Lemma reads_bit0 : R <= 64 -> reads (bit0 T) 0 R.
Proof.
  intros H a b _ Ha _ Hb. unfold bit0. apply wp_bind, (wp_wgetd R R); [exact HT|lia|unfold wwidth; lia|].
  apply wp_ok. unfold bitat. rewrite rowbit_tb. rewrite Nat.div_small, Nat.mod_small by lia. reflexivity.
Qed.

(** ** Tables: the rows [col, col + n) applied to the rows [lo, hi) *)
Definition applied (col n lo hi : nat) (M M' : mzd) : Prop :=
  okm R C M' /\ forall x t, x < R -> t < C -> bitat M' x t =
    if Nat.leb lo x && Nat.ltb x hi then xorb (bitat M x t) (xsum n (fun l => bitat T x (col + l) && bitat M (col + l) t)) else bitat M x t.

Lemma inv_applied : forall ap ap' col n lo hi M M', inv ap M -> applied col n lo hi M M' -> col + n <= R ->
  (forall x k, x < R -> k < R -> ap' x k = ap x k || (Nat.leb lo x && Nat.ltb x hi) && (Nat.leb col k && Nat.ltb k (col + n))) ->
  (forall x k, x < R -> k < R -> lo <= x -> x < hi -> col <= k -> k < col + n -> ap x k = false) ->
  (forall x k, x < R -> k < R -> lo <= k -> k < hi -> ap' x k = false) -> inv ap' M'.
Proof.
  intros ap ap' col n lo hi M M' HI [HM' E] Hn A1 A2 A3.
  apply (inv_step ap (fun x k => (Nat.leb lo x && Nat.ltb x hi) && (Nat.leb col k && Nat.ltb k (col + n))) ap' M M' HM' HI).
  - intros x t Hx Ht. rewrite E by assumption. destruct (Nat.leb lo x && Nat.ltb x hi); cbn [andb].
    + rewrite (xsum_band R col n (fun k => bitat T x k && bitat M k t)) by exact Hn. reflexivity.
    + rewrite xsum_false by reflexivity. rewrite xorb_false_r. reflexivity.
  - exact A1.
  - intros x k Hx Hk. specialize (A2 x k Hx Hk). bcase; try (rewrite A2 by lia; reflexivity); apply andb_false_r.
  - intros x k k' Hx Hk Hk' Ea. specialize (A3 x k Hx Hk). bcase. rewrite A3 in Ea by lia. discriminate.
Qed.
End Sys.
