(** C63: the self test. *)
From Coq Require Import Arith NArith ZArith List Bool Lia String.
From Verif Require Import Base Tables Model Spec ModelAcc SpecAcc Acc.
Import ListNotations.
Local Open Scope list_scope.

(** C63: on a little-endian machine the self test prints the text [all_pass], whatever the
    clock, the generator, the number of rounds TEST and the garbage in its local variables. *)
Lemma C63_all_pass_main : forall n g s, typed_locals g ->
  exists out s', accuracy_main LE n g s = Ok (out, s') /\ String.concat "" out = all_pass.
Proof.
  intros n g s Hg. destruct (main_run LE n g s Hg) as (s' & E). eexists _, s'. split; [exact E|].
  vm_compute. reflexivity.
Qed.

(** C63: on a big-endian machine the six concatenation tests fail, and only these. *)
Lemma C63_big_endian_main : forall n g s, typed_locals g ->
  exists out s', accuracy_main BE n g s = Ok (out, s') /\ String.concat "" out = com_fails.
Proof.
  intros n g s Hg. destruct (main_run BE n g s Hg) as (s' & E). eexists _, s'. split; [exact E|].
  vm_compute. reflexivity.
Qed.

(** C63: locals full of ones satisfy the hypothesis; and a loop of the self test does notice a
    wrong result: a round that fails makes it print ERROR. *)
Example C63_ex_main :
  (exists g, typed_locals g /\ l_mat g 0 W8 0 = repeat [255%N] 8) /\
  (exists s s', acc_mulnum LE W8 3 (fun _ => repeat [255%N] 8) s = Ok (true, s')) /\
  fst (match acc_loop 3 (fun k => Ok (S k, negb (Nat.eqb k 1))) 0 with Ok r => r | UB => (true, 9) end) = false.
Proof.
  split; [|split].
  - pose (M := fun w => repeat (repeat (2 ^ N.of_nat (cb w) - 1)%N (nw w)) (dim w)).
    pose (V := fun w => repeat (2 ^ N.of_nat (cb w) - 1)%N (nw w)).
    assert (HV : forall w, typedV w (V w)).
    { intros w. destruct w; (split; [reflexivity|repeat constructor]). }
    assert (HM : forall w, typedM w (M w)).
    { intros w. split; [apply repeat_length|]. apply Forall_forall. intros r Hr. apply repeat_spec in Hr as ->.
      exact (HV w). }
    exists (mklocals (fun _ w _ => M w) (fun _ w _ => V w) (fun _ w _ => mkaff (M w) (V w))
      (fun c => mkaff (M (com_tgt c)) (V (com_tgt c))) (fun c _ => M (com_src c)) (fun c => M (com_tgt c))).
    split; [|reflexivity]. split; intros; cbn [l_mat l_vec l_aff l_com l_src l_tgt amat avec]; auto.
  - pose (s := mkworld 0 0 0 (fun k => N.of_nat k) 0). exists s. destruct (mulnum_pass LE W8 3 (fun _ => repeat [255%N] 8) s eq_refl) as (s' & E); [|eauto].
    intros _. split; [reflexivity|]. repeat constructor.
  - reflexivity.
Qed.
