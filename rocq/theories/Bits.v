(** readbit, flipbit, setbit *)
From Coq Require Import Arith NArith ZArith List Bool Lia.
From Verif Require Import Base Tables Model Spec LinAlg Mem Cons.
Import ListNotations.

Definition in_range (w : width) (i : Z) : Prop := (0 <= i < Z.of_nat (dim w))%Z.

Lemma bit_elem_check : forall w,
  forallb (fun j => let (k, o) := bit_elem w (Z.of_nat j) in
    Nat.eqb k (j / wb w) && Z.eqb o (Z.of_nat (wb w * (j / wb w))))%bool (seq 0 (dim w)) = true.
Proof. destruct w; vm_compute; reflexivity. Qed.
Lemma bit_elem_in : forall w j, in_range w j ->
  bit_elem w j = (Z.to_nat j / wb w, Z.of_nat (wb w * (Z.to_nat j / wb w))).
Proof.
  intros w j Hj. pose proof (bit_elem_check w) as H. rewrite forallb_forall in H.
  specialize (H (Z.to_nat j)). rewrite in_seq in H. unfold in_range in Hj.
  specialize (H ltac:(lia)). rewrite Z2Nat.id in H by lia.
  destruct (bit_elem w j) as [k o]. apply andb_true_iff in H. destruct H as [H1 H2].
  apply Nat.eqb_eq in H1. apply Z.eqb_eq in H2. subst. reflexivity.
Qed.
(** outside the range the remaining index is outside the identity table *)
Lemma bit_elem_out : forall w j, ~ in_range w j ->
  (j - snd (bit_elem w j) < 0 \/ Z.of_nat (wb w) <= j - snd (bit_elem w j))%Z.
Proof.
  intros w j Hj. unfold in_range in Hj. destruct w; cbn [dim wb] in *; unfold bit_elem;
    repeat match goal with |- context [Z.ltb ?a ?b] => destruct (Z.ltb_spec a b) end;
    cbn [snd]; lia.
Qed.

Lemma zaget_ok : forall A (l : list A) i d, (0 <= i < Z.of_nat (length l))%Z ->
  zaget l i = Ok (nth (Z.to_nat i) l d).
Proof.
  intros A l i d H. unfold zaget.
  destruct (Z.leb_spec 0 i); [|lia]. destruct (Z.ltb_spec i (Z.of_nat (length l))); [|lia].
  cbn [andb]. apply aget_ok. lia.
Qed.
Lemma zaget_ub : forall A (l : list A) i, ~ (0 <= i < Z.of_nat (length l))%Z -> zaget l i = UB.
Proof.
  intros A l i H. unfold zaget.
  destruct (Z.leb_spec 0 i); destruct (Z.ltb_spec i (Z.of_nat (length l))); cbn [andb]; auto; lia.
Qed.

Section Access.
  Variables (w : width) (m : mat).
  Hypothesis Hm : shapeM w m.

  Let el (j : Z) := Z.to_nat j / wb w.
  Let bt (j : Z) := (2 ^ N.of_nat (wb w - 1 - Z.to_nat j mod wb w))%N.

  Lemma zmget_in : forall i j, in_range w i -> in_range w j -> zmget m i (el j) = Ok (word m (Z.to_nat i) (el j)).
  Proof.
    intros i j Hi Hj. unfold in_range in *. unfold zmget. destruct Hm as [HL _].
    rewrite (zaget_ok _ m i []) by lia. cbn [bind]. unfold word. apply aget_ok.
    rewrite (shapeM_row w); [|exact Hm|lia]. apply div_lt_nw. lia.
  Qed.
  Lemma zmget_out : forall i k, ~ in_range w i -> zmget m i k = UB.
  Proof.
    intros i k Hi. unfold zmget. rewrite zaget_ub; [reflexivity|]. destruct Hm as [HL _].
    rewrite HL. exact Hi.
  Qed.
  Lemma idt_in : forall j, in_range w j ->
    zaget (idt w) (j - Z.of_nat (wb w * el j))%Z = Ok (bt j).
  Proof.
    intros j Hj. unfold in_range in Hj. pose proof (wb_pos w) as P.
    pose proof (Nat.div_mod (Z.to_nat j) (wb w) ltac:(lia)) as D.
    pose proof (mod_lt_wb w (Z.to_nat j)) as M. fold (el j) in D.
    assert (E : (j - Z.of_nat (wb w * el j))%Z = Z.of_nat (Z.to_nat j mod wb w)) by lia.
    rewrite E. rewrite (zaget_ok _ _ _ 0%N) by (rewrite length_idt; lia).
    rewrite Nat2Z.id, nth_idt by auto. reflexivity.
  Qed.

  Lemma readbit_in : forall i j, in_range w i -> in_range w j ->
    readbit w m i j = Ok (if mbit w m (Z.to_nat i) (Z.to_nat j) then 1 else 0)%N.
  Proof.
    intros i j Hi Hj. unfold readbit. rewrite bit_elem_in by auto. fold (el j).
    rewrite zmget_in by auto. cbn [bind]. rewrite idt_in by auto. cbn [bind].
    unfold bt. rewrite land_pow2_eqb. reflexivity.
  Qed.
  Lemma readbit_out : forall i j, ~ (in_range w i /\ in_range w j) -> readbit w m i j = UB.
  Proof.
    intros i j H. unfold readbit. pose proof (bit_elem_out w j) as HO.
    destruct (bit_elem w j) as [k o] eqn:E. cbn [snd] in HO.
    assert (D : in_range w i \/ ~ in_range w i) by (unfold in_range; lia).
    destruct D as [Hi|Hi]; [|rewrite zmget_out by auto; reflexivity].
    destruct (zmget m i k) as [x|]; [|reflexivity]. cbn [bind].
    rewrite zaget_ub; [reflexivity|]. rewrite length_idt.
    assert (Hj : ~ in_range w j) by tauto. specialize (HO Hj). lia.
  Qed.

  Lemma flipbit_in : forall i j, in_range w i -> in_range w j ->
    exists r, flipbit w m i j = Ok r /\ shapeM w r /\
      forall i' k', word r i' k' =
        if (Nat.eqb i' (Z.to_nat i) && Nat.eqb k' (el j))%bool
        then N.lxor (word m i' k') (bt j) else word m i' k'.
  Proof.
    intros i j Hi Hj. unfold flipbit. rewrite bit_elem_in by auto. fold (el j).
    rewrite zmget_in by auto. cbn [bind]. rewrite idt_in by auto. cbn [bind].
    unfold zmset. destruct Hm as [HL HF]. unfold in_range in *.
    destruct (Z.leb_spec 0 i); [|lia]. destruct (Z.ltb_spec i (Z.of_nat (length m))); [|lia].
    cbn [andb].
    assert (HW : wp (mset m (Z.to_nat i) (el j) (N.lxor (word m (Z.to_nat i) (el j)) (bt j)))
      (fun r => shapeM w r /\ forall i' k', word r i' k' =
        if (Nat.eqb i' (Z.to_nat i) && Nat.eqb k' (el j))%bool
        then N.lxor (word m i' k') (bt j) else word m i' k')).
    { apply wp_mset with (w := w); [exact Hm|lia|apply div_lt_nw; lia|].
      intros m' S E. split; auto. intros i' k'. rewrite E.
      destruct (Nat.eqb_spec i' (Z.to_nat i)) as [->|]; cbn [andb]; auto.
      destruct (Nat.eqb_spec k' (el j)) as [->|]; auto. }
    apply wp_exists in HW. exact HW.
  Qed.
  Lemma flipbit_out : forall i j, ~ (in_range w i /\ in_range w j) -> flipbit w m i j = UB.
  Proof.
    intros i j H. unfold flipbit. pose proof (bit_elem_out w j) as HO.
    destruct (bit_elem w j) as [k o] eqn:E. cbn [snd] in HO.
    assert (D : in_range w i \/ ~ in_range w i) by (unfold in_range; lia).
    destruct D as [Hi|Hi]; [|rewrite zmget_out by auto; reflexivity].
    destruct (zmget m i k) as [x|]; [|reflexivity]. cbn [bind].
    rewrite zaget_ub; [reflexivity|]. rewrite length_idt.
    assert (Hj : ~ in_range w j) by tauto. specialize (HO Hj). lia.
  Qed.
  Lemma setbit_in : forall i j bit, in_range w i -> in_range w j ->
    setbit w m i j bit =
      if Z.eqb (if mbit w m (Z.to_nat i) (Z.to_nat j) then 1 else 0) bit
      then Ok m else flipbit w m i j.
  Proof.
    intros i j bit Hi Hj. unfold setbit. rewrite readbit_in by auto. cbn [bind].
    destruct (mbit w m (Z.to_nat i) (Z.to_nat j)); reflexivity.
  Qed.
  Lemma setbit_out : forall i j bit, ~ (in_range w i /\ in_range w j) -> setbit w m i j bit = UB.
  Proof. intros i j bit H. unfold setbit. rewrite readbit_out by auto. reflexivity. Qed.

  (** bits of a matrix with one word changed in one bit *)
  Lemma one_bit : forall r i j, in_range w i -> in_range w j ->
    (forall i' k', word r i' k' =
        if (Nat.eqb i' (Z.to_nat i) && Nat.eqb k' (el j))%bool
        then N.lxor (word m i' k') (bt j) else word m i' k') ->
    forall i' j', i' < dim w -> j' < dim w ->
      mbit w r i' j' = xorb (mbit w m i' j')
                            (Nat.eqb i' (Z.to_nat i) && Nat.eqb j' (Z.to_nat j)).
  Proof.
    intros r i j Hi Hj HW i' j' Hi' Hj'. unfold mbit. rewrite HW.
    pose proof (wb_pos w) as P. pose proof (mod_lt_wb w j') as Mj'.
    pose proof (mod_lt_wb w (Z.to_nat j)) as Mj.
    pose proof (Nat.div_mod j' (wb w) ltac:(lia)) as D'.
    pose proof (Nat.div_mod (Z.to_nat j) (wb w) ltac:(lia)) as D. fold (el j) in D.
    destruct (Nat.eqb i' (Z.to_nat i)); cbn [andb]; [|rewrite xorb_false_r; reflexivity].
    destruct (Nat.eqb_spec (j' / wb w) (el j)) as [E|E].
    - rewrite N.lxor_spec. f_equal. unfold bt. rewrite N.pow2_bits_eqb.
      destruct (Nat.eqb_spec j' (Z.to_nat j)) as [->|Hne].
      + apply N.eqb_refl.
      + apply N.eqb_neq. intros H. apply Hne.
        assert (j' mod wb w = Z.to_nat j mod wb w) by lia. rewrite D, D', E. lia.
    - destruct (Nat.eqb_spec j' (Z.to_nat j)) as [->|]; [contradiction|].
      rewrite xorb_false_r. reflexivity.
  Qed.
End Access.
