(** How many matrices of bits have rank r, and the reference probabilities of the rank test. *)
From Coq Require Import Arith NArith ZArith QArith Qpower Qfield List Bool Lia Field.
From Verif Require Import Base Spec LinAlg ModelRank SpecRank Rank LCCount.
Import ListNotations.
Local Open Scope nat_scope.

(** ** The span of the rows as a list of vectors *)

Definition vb (v : list N) (j : nat) : bool := N.eqb (nth j v 0%N) 1.
Definition comb (R : nat) (I : list nat) (m : list (list N)) (C : nat) (v : list N) : Prop :=
  exists c : fvec, (forall i, c i = true -> In i I) /\ forall j, j < C -> vb v j = xsum R (fun i => c i && pbits m i j).
Definition zerov (C : nat) : list N := repeat 0%N C.
Definition ineq (v : list N) (sp : list (list N)) : {In v sp} + {~ In v sp} := in_dec (list_eq_dec N.eq_dec) v sp.
Definition add_row (st : list (list N) * nat) (v : list N) : list (list N) * nat :=
  let (sp, r) := st in if ineq v sp then (sp, r) else (sp ++ map (zip_xor v) sp, S r).
Definition span (C : nat) (m : list (list N)) : list (list N) * nat := fold_left add_row m ([zerov C], 0).
Definition rk (C : nat) (m : list (list N)) : nat := snd (span C m).

Lemma vb_ext : forall C v w, In v (words C) -> In w (words C) -> (forall j, j < C -> vb v j = vb w j) -> v = w.
Proof.
  intros C v w Hv Hw H. apply words_in in Hv as [L1 B1]. apply words_in in Hw as [L2 B2].
  apply (list_ext _ 0%N); [lia|]. intros j Hj. specialize (H j ltac:(lia)). unfold vb in H.
  assert (X := B1 (nth j v 0%N) ltac:(apply nth_In; lia)). assert (Y := B2 (nth j w 0%N) ltac:(apply nth_In; lia)).
  destruct X as [X|X], Y as [Y|Y]; rewrite X, Y in *; auto; discriminate.
Qed.
Lemma vb_xor : forall C v w j, In v (words C) -> In w (words C) -> j < C -> vb (zip_xor v w) j = xorb (vb v j) (vb w j).
Proof.
  intros C v w j Hv Hw Hj. apply words_in in Hv as [L1 B1]. apply words_in in Hw as [L2 B2].
  unfold vb. rewrite zip_xor_nth by lia. rewrite lxor_one; [apply xorb_comm| |]; [apply B1|apply B2]; apply nth_In; lia.
Qed.
Lemma xor_words : forall C v w, In v (words C) -> In w (words C) -> In (zip_xor v w) (words C).
Proof.
  intros C v w Hv Hw. apply words_in in Hv as [L1 B1]. apply words_in in Hw as [L2 B2]. apply words_in.
  split; [rewrite zip_xor_len; lia|]. apply zip_xor_bits; auto.
Qed.
Lemma vb_zero : forall C j, vb (zerov C) j = false.
Proof. intros C j. unfold vb, zerov. rewrite nth_repeat. reflexivity. Qed.
Lemma zero_words : forall C, In (zerov C) (words C).
Proof. intros C. apply words_in. split; [apply repeat_length|]. intros x Hx. apply repeat_spec in Hx. auto. Qed.

Definition rkinv (C : nat) (m : list (list N)) (sp : list (list N)) (I : list nat) : Prop :=
  NoDup sp /\ (forall v, In v sp -> In v (words C)) /\ N.of_nat (length sp) = (2 ^ N.of_nat (length I))%N /\
  rows_of (length m) I /\
  (forall v, In v (words C) -> (In v sp <-> comb (length m) I m C v)) /\
  indep (length m) C (pbits m) I /\
  (forall v, In v m -> In v sp).

Lemma pbits_snoc : forall m v i j, pbits (m ++ [v]) i j = if i <? length m then pbits m i j else if i =? length m then vb v j else false.
Proof.
  intros m v i j. unfold pbits, vb. destruct (Nat.ltb_spec i (length m)).
  - rewrite app_nth1 by auto. reflexivity.
  - destruct (Nat.eqb_spec i (length m)) as [->|].
    + rewrite nth_middle. reflexivity.
    + rewrite (nth_overflow (m ++ [v])) by (rewrite app_length; simpl; lia). destruct j; reflexivity.
Qed.
Lemma xsum_snoc : forall m v (c : fvec) j,
  xsum (S (length m)) (fun i => c i && pbits (m ++ [v]) i j) =
  xorb (xsum (length m) (fun i => c i && pbits m i j)) (c (length m) && vb v j).
Proof.
  intros m v c j. cbn [xsum]. f_equal.
  - apply xsum_ext. intros i Hi. rewrite pbits_snoc. apply Nat.ltb_lt in Hi. rewrite Hi. reflexivity.
  - rewrite pbits_snoc, Nat.ltb_irrefl, Nat.eqb_refl. reflexivity.
Qed.

Lemma nodup_app : forall A (a b : list A), NoDup a -> NoDup b -> (forall x, In x a -> ~ In x b) -> NoDup (a ++ b).
Proof.
  intros A a b Ha Hb H. induction Ha as [|x a Hx Ha IH]; simpl; auto. constructor.
  - rewrite in_app_iff. intros [K|K]; [auto|]. apply (H x); simpl; auto.
  - apply IH. intros y Hy. apply H. simpl; auto.
Qed.

Lemma nodup_map_in : forall A B (f : A -> B) l, (forall a b, In a l -> In b l -> f a = f b -> a = b) -> NoDup l -> NoDup (map f l).
Proof.
  intros A B f l H Hl. induction Hl as [|x l Hx Hl IH]; simpl; constructor.
  - intros K. apply in_map_iff in K as (y & E & Hy). apply Hx. replace x with y; auto. apply H; simpl; auto.
  - apply IH. intros a b Ha Hb. apply H; simpl; auto.
Qed.

Lemma rkinv_step : forall C m sp I v, rkinv C m sp I -> In v (words C) ->
  rkinv C (m ++ [v]) (fst (add_row (sp, length I) v)) (if ineq v sp then I else I ++ [length m]) /\
  snd (add_row (sp, length I) v) = length (if ineq v sp then I else I ++ [length m]).
Proof.
  intros C m sp I v (N1 & W1 & L1 & [R1 R2] & S1 & D1 & M1) Hv. unfold add_row.
  assert (HLm : length (m ++ [v]) = S (length m)) by (rewrite app_length; simpl; lia).
  assert (HnI : ~ In (length m) I) by (intros H; apply R2 in H; lia).
  destruct (ineq v sp) as [Hin|Hout]; cbn [fst snd].
  - split; auto. unfold rkinv. rewrite HLm.
    assert (Hc0 : forall c : fvec, (forall i, c i = true -> In i I) -> c (length m) = false).
    { intros c Hc. destruct (c (length m)) eqn:E; auto. exfalso. auto. }
    refine (conj N1 (conj W1 (conj L1 (conj (conj R1 _) (conj _ (conj _ _)))))).
    + intros i Hi. apply R2 in Hi. lia.
    + intros w Hw. rewrite (S1 w Hw). split; intros (c & Hc1 & Hc2); exists c; (split; [exact Hc1|]); intros j Hj.
      * rewrite xsum_snoc, (Hc0 c Hc1), xorb_false_r. auto.
      * rewrite (Hc2 j Hj), xsum_snoc, (Hc0 c Hc1), xorb_false_r. reflexivity.
    + intros c Hc H0. apply D1; auto. intros j Hj. specialize (H0 j Hj).
      rewrite xsum_snoc, (Hc0 c Hc), xorb_false_r in H0. exact H0.
    + intros w Hw. apply in_app_iff in Hw as [Hw|[<-|[]]]; auto.
  - split; [|rewrite app_length; simpl; lia]. unfold rkinv. rewrite HLm.
    assert (Hcomb : ~ comb (length m) I m C v) by (intros H; apply Hout, S1; auto).
    refine (conj _ (conj _ (conj _ (conj (conj _ _) (conj _ (conj _ _)))))).
    + apply nodup_app; auto.
      * apply nodup_map_in; auto. intros a b Ha Hb E. apply W1 in Ha, Hb.
        apply (vb_ext C); auto. intros j Hj. assert (E2 := f_equal (fun w => vb w j) E). cbn beta in E2.
        rewrite !(vb_xor C) in E2 by auto. destruct (vb v j), (vb a j), (vb b j); auto; discriminate.
      * intros x Hx Hm. apply in_map_iff in Hm as (w & <- & Hw). apply Hout. assert (Ww := W1 _ Hw).
        apply S1 in Hx; [|apply xor_words; auto]. apply S1 in Hw; auto. apply S1; auto.
        destruct Hx as (c & Hc1 & Hc2), Hw as (d & Hd1 & Hd2). exists (fun i => xorb (c i) (d i)). split.
        -- intros i Hi. destruct (c i) eqn:Ec; [apply Hc1; auto|]. apply Hd1. destruct (d i); auto.
        -- intros j Hj. specialize (Hc2 j Hj). specialize (Hd2 j Hj). rewrite (vb_xor C) in Hc2 by auto.
           rewrite (xsum_ext _ _ (fun i => xorb (c i && pbits m i j) (d i && pbits m i j)))
             by (intros; destruct (c k), (d k), (pbits m k j); reflexivity).
           rewrite xsum_xorb, <- Hc2, <- Hd2. destruct (vb v j), (vb w j); reflexivity.
    + intros w Hw. apply in_app_iff in Hw as [Hw|Hw]; auto. apply in_map_iff in Hw as (u & <- & Hu). apply xor_words; auto.
    + rewrite !app_length, map_length. cbn [length]. rewrite Nat.add_1_r, Nat2N.inj_succ, N.pow_succ_r', <- L1. lia.
    + apply nodup_app; auto; [constructor; [intros []|constructor]|]. intros i Hi [<-|[]]. auto.
    + intros i Hi. apply in_app_iff in Hi as [Hi|[<-|[]]]; [apply R2 in Hi|]; lia.
    + intros w Hw. rewrite in_app_iff. split.
      * intros [H|H].
        -- apply S1 in H; auto. destruct H as (c & Hc1 & Hc2). exists c.
           assert (c (length m) = false) by (destruct (c (length m)) eqn:E; auto; exfalso; auto).
           split; [intros; apply in_app_iff; auto|]. intros j Hj. rewrite xsum_snoc, H, xorb_false_r. auto.
        -- apply in_map_iff in H as (u & <- & Hu). assert (Wu := W1 _ Hu). apply S1 in Hu; auto.
           destruct Hu as (c & Hc1 & Hc2). exists (fun i => if i =? length m then true else c i). split.
           ++ intros i Hi. apply in_app_iff. destruct (Nat.eqb_spec i (length m)); [right; simpl; auto|left; auto].
           ++ intros j Hj. rewrite xsum_snoc, Nat.eqb_refl, (vb_xor C) by auto. rewrite Hc2 by auto.
              rewrite (xsum_ext _ (fun i => (if i =? length m then true else c i) && pbits m i j) (fun i => c i && pbits m i j)).
              ** simpl andb. apply xorb_comm.
              ** intros i Hi. destruct (Nat.eqb_spec i (length m)); [lia|reflexivity].
      * intros (c & Hc1 & Hc2). destruct (c (length m)) eqn:Ec.
        -- right. apply in_map_iff. exists (zip_xor v w). assert (Wx := xor_words C v w Hv Hw). split.
           ++ apply (vb_ext C); auto; [apply xor_words; auto|]. intros j Hj. rewrite !(vb_xor C) by auto.
              destruct (vb v j), (vb w j); reflexivity.
           ++ apply S1; auto. exists (fun i => if i =? length m then false else c i). split.
              ** intros i. destruct (Nat.eqb_spec i (length m)); [discriminate|]. intros Hi.
                 apply Hc1 in Hi. apply in_app_iff in Hi as [Hi|[Hi|[]]]; [auto|congruence].
              ** intros j Hj. rewrite (vb_xor C) by auto. rewrite (Hc2 j Hj), xsum_snoc, Ec. simpl andb.
                 rewrite (xsum_ext _ (fun i => (if i =? length m then false else c i) && pbits m i j) (fun i => c i && pbits m i j)).
                 --- destruct (xsum (length m) (fun i => c i && pbits m i j)), (vb v j); reflexivity.
                 --- intros i Hi. destruct (Nat.eqb_spec i (length m)); [lia|reflexivity].
        -- left. apply S1; auto. exists c. split.
           ++ intros i Hi. assert (Hi' := Hc1 i Hi). apply in_app_iff in Hi' as [Hi'|[Hi'|[]]]; [auto|]. congruence.
           ++ intros j Hj. rewrite (Hc2 j Hj), xsum_snoc, Ec. simpl andb. apply xorb_false_r.
    + intros c Hc H0.
      assert (Ec : c (length m) = false).
      { destruct (c (length m)) eqn:Ec; auto. exfalso. apply Hcomb. exists (fun i => if i =? length m then false else c i). split.
        - intros i. destruct (Nat.eqb_spec i (length m)); [discriminate|]. intros Hi.
          apply Hc in Hi. apply in_app_iff in Hi as [Hi|[Hi|[]]]; [auto|congruence].
        - intros j Hj. specialize (H0 j Hj). rewrite xsum_snoc, Ec in H0. simpl andb in H0. apply xorb_eq in H0. rewrite <- H0.
          apply xsum_ext. intros i Hi. destruct (Nat.eqb_spec i (length m)); [lia|reflexivity]. }
      apply D1.
      * intros i Hi. assert (Hi' := Hc i Hi). apply in_app_iff in Hi' as [Hi'|[Hi'|[]]]; [auto|]. congruence.
      * intros j Hj. specialize (H0 j Hj). rewrite xsum_snoc, Ec in H0. simpl andb in H0. rewrite xorb_false_r in H0. exact H0.
    + intros w Hw. apply in_app_iff in Hw as [Hw|[<-|[]]]; [apply in_app_iff; auto|]. apply in_app_iff. right.
      apply in_map_iff. exists (zerov C). split.
      * apply (vb_ext C); auto; [apply xor_words; auto; apply zero_words|]. intros j Hj.
        rewrite (vb_xor C) by (auto; apply zero_words). rewrite vb_zero. apply xorb_false_r.
      * apply S1; [apply zero_words|]. exists (fun _ => false). split; [discriminate|]. intros j Hj. rewrite vb_zero.
        symmetry. apply xsum_false. reflexivity.
Qed.
Lemma rkinv_span : forall C m, (forall v, In v m -> In v (words C)) ->
  exists I, rkinv C m (fst (span C m)) I /\ rk C m = length I.
Proof.
  intros C m. induction m as [|v m IH] using rev_ind; intros H.
  - exists []. split; auto. unfold rkinv, span. cbn [fold_left fst length].
    refine (conj _ (conj _ (conj eq_refl (conj (conj (NoDup_nil _) _) (conj _ (conj _ _)))))).
    + constructor; [intros []|constructor].
    + intros v [<-|[]]. apply zero_words.
    + intros i [].
    + intros v Hv. split.
      * intros [<-|[]]. exists (fun _ => false). split; [discriminate|]. intros j Hj. rewrite vb_zero. reflexivity.
      * intros (c & _ & H2). left. apply (vb_ext C); [apply zero_words|exact Hv|]. intros j Hj. rewrite vb_zero. symmetry. apply H2; auto.
    + intros c Hc _ i. destruct (c i) eqn:E; auto. destruct (Hc i E).
    + intros v [].
  - destruct IH as (I & HI & E); [intros; apply H, in_app_iff; auto|].
    unfold rk, span in *. rewrite fold_left_app. cbn [fold_left].
    destruct (fold_left add_row m ([zerov C], 0)) as [sp r]. cbn [fst snd] in *. subst r.
    exists (if ineq v sp then I else I ++ [length m]). apply rkinv_step; auto. apply H, in_app_iff. simpl; auto.
Qed.

Lemma rk_rank : forall R C m, bitmat R C m -> rank_is R C (pbits m) (rk C m).
Proof.
  intros R C m [HL Hm]. assert (Hw : forall v, In v m -> In v (words C)) by (intros v Hv; apply words_in, Hm, Hv).
  destruct (rkinv_span C m Hw) as (I & (N1 & W1 & L1 & R1 & S1 & D1 & M1) & ->). rewrite HL in *.
  split; [exists I; auto|]. intros I' HI' Hind.
  assert (HX : forall k, k <= R -> exists D : fmat, forall i, i < k ->
     (forall l, D i l = true -> In l I) /\ forall j, j < C -> pbits m i j = xsum R (fun l => D i l && pbits m l j)).
  { induction k as [|k IHk]; intros Hk; [exists (fun _ _ => false); intros; lia|].
    destruct IHk as (D & HD); [lia|].
    assert (Hin : In (nth k m []) m) by (apply nth_In; lia).
    destruct (proj1 (S1 _ (Hw _ Hin)) (M1 _ Hin)) as (d & Hd1 & Hd2).
    exists (fun i => if i =? k then d else D i). intros i Hi. destruct (Nat.eqb_spec i k) as [->|]; [|apply HD; lia].
    split; [exact Hd1|]. intros j Hj. apply (Hd2 j Hj). }
  destruct (HX R (le_n R)) as (D & HD).
  apply (indep_bound R C (pbits m) I' (length I) (fun l j => pbits m (nth l I 0) j) (fun i l => D i (nth l I 0)) HI' Hind).
  intros i j Hi Hj. destruct (HD i (proj2 HI' i Hi)) as [D2 D3]. rewrite (D3 j Hj).
  rewrite <- (xsum_list R I (fun l => D i (nth l I 0)) (fun k => pbits m k j) R1).
  apply xsum_ext. intros k Hk. f_equal. destruct (D i k) eqn:Ed.
  - symmetry. apply existsb_exists. assert (Hin := D2 _ Ed).
    apply (In_nth _ _ 0) in Hin as (l & Hl & El). exists l. rewrite in_seq, El, Nat.eqb_refl, Ed. split; auto; lia.
  - symmetry. apply not_true_iff_false. intros H. apply existsb_exists in H as (l & H1 & H2).
    apply andb_true_iff in H2 as [H2 H3]. apply Nat.eqb_eq in H2. rewrite H2 in H3. congruence.
Qed.

(** ** Counting *)

Definition mats_step (C : nat) (ms : list (list (list N))) : list (list (list N)) :=
  flat_map (fun m => map (fun v => m ++ [v]) (words C)) ms.
Fixpoint mats (R C : nat) : list (list (list N)) :=
  match R with O => [[]] | S R' => mats_step C (mats R' C) end.

Lemma mats_in : forall R C m, In m (mats R C) <-> bitmat R C m.
Proof.
  induction R as [|R IH]; intros C m; cbn [mats].
  - split.
    + intros [<-|[]]. split; auto. intros r [].
    + intros [H _]. destruct m; [left; auto|discriminate].
  - unfold mats_step. rewrite in_flat_map. split.
    + intros (m' & H1 & H2). apply in_map_iff in H2 as (v & <- & Hv). apply IH in H1 as [L1 B1]. apply words_in in Hv.
      split; [rewrite app_length; simpl; lia|]. intros r Hr. apply in_app_iff in Hr as [Hr|[<-|[]]]; auto.
    + intros [L B]. destruct m as [|v0 m0] using rev_ind; [discriminate|]. clear IHm0.
      rewrite app_length in L. simpl in L. exists m0. split.
      * apply IH. split; [lia|]. intros r Hr. apply B, in_app_iff. auto.
      * apply in_map_iff. exists v0. split; auto. apply words_in, B, in_app_iff. simpl; auto.
Qed.
Lemma mats_nodup : forall R C, NoDup (mats R C).
Proof.
  induction R as [|R IH]; intros C; cbn [mats].
  - constructor; [intros []|constructor].
  - unfold mats_step. specialize (IH C). induction IH as [|m l Hm Hl IHl]; simpl; [constructor|].
    apply nodup_app; auto.
    + apply nodup_map_in; [|apply words_nodup]. intros a b _ _ E. apply app_inj_tail in E. apply E.
    + intros x Hx Hf. apply in_map_iff in Hx as (v & <- & _). apply in_flat_map in Hf as (m' & H1 & H2).
      apply in_map_iff in H2 as (v' & E & _). apply app_inj_tail in E as [-> _]. auto.
Qed.
Lemma words_len : forall n, N.of_nat (length (words n)) = (2 ^ N.of_nat n)%N.
Proof.
  induction n as [|n IH]; [reflexivity|]. cbn [words]. rewrite app_length, !map_length, Nat2N.inj_succ, N.pow_succ_r', <- IH. lia.
Qed.

Lemma filter_split : forall A (p : A -> bool) l, length (filter p l) + length (filter (fun x => negb (p x)) l) = length l.
Proof. intros A p l. induction l as [|x l IH]; simpl; auto. destruct (p x); simpl; lia. Qed.
Definition inb (sp : list (list N)) (v : list N) : bool := if ineq v sp then true else false.
Lemma span_in_count : forall C m, (forall v, In v m -> In v (words C)) ->
  N.of_nat (length (filter (inb (fst (span C m))) (words C))) = (2 ^ N.of_nat (rk C m))%N.
Proof.
  intros C m H. destruct (rkinv_span C m H) as (I & (N1 & W1 & L1 & _) & ->). rewrite <- L1. f_equal.
  apply Nat.le_antisymm.
  - apply NoDup_incl_length; [apply NoDup_filter, words_nodup|]. intros v Hv. apply filter_In in Hv as [_ Hv].
    unfold inb in Hv. destruct (ineq v (fst (span C m))); [auto|discriminate].
  - apply NoDup_incl_length; auto. intros v Hv. apply filter_In. split; auto.
    unfold inb. destruct (ineq v (fst (span C m))); auto.
Qed.
Lemma rk_snoc : forall C m v, rk C (m ++ [v]) = if inb (fst (span C m)) v then rk C m else S (rk C m).
Proof.
  intros C m v. unfold rk, span, inb. rewrite fold_left_app. cbn [fold_left].
  destruct (fold_left add_row m ([zerov C], 0)) as [sp r]. cbn [fst snd]. unfold add_row. destruct (ineq v sp); reflexivity.
Qed.
Definition mcount (R C r : nat) : N := N.of_nat (length (filter (fun m => rk C m =? r) (mats R C))).

Lemma filter_len_map : forall A B (f : A -> B) p l, length (filter p (map f l)) = length (filter (fun a => p (f a)) l).
Proof. intros A B f p l. induction l as [|a l IH]; simpl; auto. destruct (p (f a)); simpl; auto. Qed.
Lemma filter_len_ext : forall A (p q : A -> bool) l, (forall a, In a l -> p a = q a) -> length (filter p l) = length (filter q l).
Proof. intros A p q l H. f_equal. apply filter_ext_in. auto. Qed.

Lemma ext_count : forall C m r, (forall v, In v m -> In v (words C)) ->
  N.of_nat (length (filter (fun v => rk C (m ++ [v]) =? r) (words C))) =
  ((if (rk C m =? r)%nat then 2 ^ N.of_nat r else 0) + (if (S (rk C m) =? r)%nat then 2 ^ N.of_nat C - 2 ^ N.of_nat (r - 1) else 0))%N.
Proof.
  intros C m r H. assert (E := span_in_count C m H).
  assert (F := filter_split _ (inb (fst (span C m))) (words C)). assert (G := words_len C).
  rewrite (filter_len_ext _ _ (fun v => if inb (fst (span C m)) v then rk C m =? r else S (rk C m) =? r))
    by (intros v _; rewrite rk_snoc; destruct (inb (fst (span C m)) v); reflexivity).
  destruct (Nat.eqb_spec (rk C m) r) as [E1|E1]; destruct (Nat.eqb_spec (S (rk C m)) r) as [E2|E2]; try lia.
  - rewrite (filter_len_ext _ _ (inb (fst (span C m)))) by (intros v _; destruct (inb (fst (span C m)) v); reflexivity).
    rewrite E, E1. lia.
  - rewrite (filter_len_ext _ _ (fun v => negb (inb (fst (span C m)) v))) by (intros v _; destruct (inb (fst (span C m)) v); reflexivity).
    replace (r - 1) with (rk C m) by lia. rewrite <- E, <- G. lia.
  - rewrite (filter_len_ext _ _ (fun _ => false)) by (intros v _; destruct (inb (fst (span C m)) v); reflexivity).
    generalize (words C). intros l. induction l; simpl; auto.
Qed.

Lemma mcount_S : forall R C r, mcount (S R) C r =
  (2 ^ N.of_nat r * mcount R C r + match r with O => 0 | S r' => (2 ^ N.of_nat C - 2 ^ N.of_nat r') * mcount R C r' end)%N.
Proof.
  intros R C r. unfold mcount. cbn [mats]. unfold mats_step.
  assert (Hm : forall m, In m (mats R C) -> forall v, In v m -> In v (words C)).
  { intros m Hm v Hv. apply mats_in in Hm as [_ B]. apply words_in, B, Hv. }
  revert Hm. generalize (mats R C). intros l. induction l as [|m l IH]; intros Hm.
  - simpl. destruct r; lia.
  - cbn [flat_map]. rewrite filter_app, app_length, filter_len_map, Nat2N.inj_add, IH by (intros; apply (Hm m0); simpl; auto).
    rewrite (ext_count C m r) by (apply Hm; simpl; auto). cbn [filter].
    destruct r as [|r]; [|replace (S r - 1) with r by lia].
    + destruct (Nat.eqb_spec (rk C m) 0), (Nat.eqb_spec (S (rk C m)) 0); cbn [length]; try lia; rewrite ?Nat2N.inj_succ; lia.
    + change (S (rk C m) =? S r) with (rk C m =? r).
      destruct (Nat.eqb_spec (rk C m) (S r)), (Nat.eqb_spec (rk C m) r); cbn [length]; try lia; rewrite ?Nat2N.inj_succ; lia.
Qed.
Lemma mcount_0 : forall C r, mcount 0 C r = if r =? 0 then 1%N else 0%N.
Proof. intros C [|r]; reflexivity. Qed.

(** ** The formula *)

Local Open Scope Q_scope.
Definition p2 (n : nat) : Q := inject_Z (2 ^ Z.of_nat n).
Fixpoint fall (n r : nat) : Q := match r with O => 1 | S r' => fall n r' * (p2 n - p2 r') end.

Lemma p2_S : forall n, p2 (S n) == 2 * p2 n.
Proof. intros n. unfold p2. rewrite Nat2Z.inj_succ, Z.pow_succ_r, inject_Z_mult by lia. reflexivity. Qed.
Lemma p2_pos : forall n, 0 < p2 n.
Proof. intros n. unfold p2. change 0 with (inject_Z 0). rewrite <- Zlt_Qlt. apply Z.pow_pos_nonneg; lia. Qed.
Lemma p2_nz : forall n, ~ p2 n == 0.
Proof. intros n H. assert (X := p2_pos n). rewrite H in X. discriminate. Qed.
Lemma p2_add : forall a b, p2 (a + b) == p2 a * p2 b.
Proof. intros a b. unfold p2. rewrite Nat2Z.inj_add, Z.pow_add_r, inject_Z_mult by lia. reflexivity. Qed.
Lemma p2_sub_nz : forall i r, (i < r)%nat -> ~ p2 r - p2 i == 0.
Proof.
  intros i r H E. assert (X : p2 r == p2 i) by (setoid_replace (p2 r) with ((p2 r - p2 i) + p2 i) by ring; rewrite E; ring).
  unfold p2 in X. assert (Y := proj1 (inject_Z_injective _ _) X). apply Z.pow_inj_r in Y; lia.
Qed.
Lemma fall_nz : forall n r, (r <= n)%nat -> ~ fall n r == 0.
Proof.
  intros n r. induction r as [|r IH]; intros H; cbn [fall]; [discriminate|]. intros E. apply Qmult_integral in E as [E|E].
  - apply IH in E; [auto|lia].
  - apply (p2_sub_nz r n) in E; auto.
Qed.
(** shifting the first argument *)
Lemma fall_S : forall n r, fall (S n) (S r) == (p2 (S n) - 1) * p2 r * fall n r.
Proof.
  intros n r. induction r as [|r IH].
  - cbn [fall]. change (p2 0) with 1. ring.
  - change (fall (S n) (S (S r))) with (fall (S n) (S r) * (p2 (S n) - p2 (S r))). rewrite IH. cbn [fall]. rewrite !p2_S. ring.
Qed.
(** the number of R x C matrices of rank r *)
Definition mform (R C r : nat) : Q := fall R r * fall C r / fall r r.

Lemma mform_S : forall R C r, mform (S R) C (S r) == p2 (S r) * mform R C (S r) + (p2 C - p2 r) * mform R C r.
Proof.
  intros R C r. unfold mform. rewrite !fall_S.
  change (fall R (S r)) with (fall R r * (p2 R - p2 r)). change (fall C (S r)) with (fall C r * (p2 C - p2 r)). rewrite !p2_S.
  assert (H1 := fall_nz r r (le_n r)). assert (H2 := p2_nz r).
  assert (H3 : ~ 2 * p2 r - 1 == 0).
  { rewrite <- p2_S. apply (p2_sub_nz 0 (S r)). lia. }
  field. repeat split; auto.
Qed.
Lemma qN_add : forall a b, inject_Z (Z.of_N (a + b)) == inject_Z (Z.of_N a) + inject_Z (Z.of_N b).
Proof. intros a b. rewrite N2Z.inj_add, inject_Z_plus. reflexivity. Qed.
Lemma qN_mul : forall a b, inject_Z (Z.of_N (a * b)) == inject_Z (Z.of_N a) * inject_Z (Z.of_N b).
Proof. intros a b. rewrite N2Z.inj_mul, inject_Z_mult. reflexivity. Qed.
Lemma qN_p2 : forall n, inject_Z (Z.of_N (2 ^ N.of_nat n)) = p2 n.
Proof. intros n. unfold p2. rewrite N2Z.inj_pow, nat_N_Z. reflexivity. Qed.

(** no matrix has more rank than columns *)
Lemma mcount_big : forall R C r, (C < r)%nat -> mcount R C r = 0%N.
Proof.
  induction R as [|R IH]; intros C r H.
  - rewrite mcount_0. destruct r; [lia|reflexivity].
  - rewrite mcount_S, IH by auto. destruct r as [|r]; [lia|]. destruct (Nat.eq_dec r C) as [->|].
    + rewrite N.sub_diag. lia.
    + rewrite IH by lia. lia.
Qed.
Lemma mcount_form : forall R C r, inject_Z (Z.of_N (mcount R C r)) == mform R C r.
Proof.
  induction R as [|R IH]; intros C r.
  - rewrite mcount_0. unfold mform. destruct r as [|r]; [reflexivity|]. cbn [Nat.eqb].
    assert (E : fall 0 (S r) == 0).
    { clear. induction r as [|r IH]; [reflexivity|]. change (fall 0 (S r) * (p2 0 - p2 (S r)) == 0). rewrite IH. ring. }
    rewrite E. unfold Qdiv. rewrite !Qmult_0_l. reflexivity.
  - rewrite mcount_S. destruct r as [|r].
    + rewrite N.add_0_r, qN_mul, IH. reflexivity.
    + rewrite qN_add, !qN_mul, qN_p2, !IH, mform_S. apply Qplus_comp; [reflexivity|].
      destruct (Nat.le_gt_cases r C) as [Hr|Hr].
      * apply Qmult_comp; [|reflexivity].
        rewrite N2Z.inj_sub by (apply N.pow_le_mono_r; lia). unfold Z.sub. rewrite inject_Z_plus, inject_Z_opp, !qN_p2. reflexivity.
      * rewrite <- IH, mcount_big by auto. change (inject_Z (Z.of_N 0)) with 0. rewrite !Qmult_0_r. reflexivity.
Qed.

(** ** The reference probabilities *)
Lemma pow2_sub : forall a b : nat, pow2 (Z.of_nat a - Z.of_nat b) == p2 a / p2 b.
Proof.
  intros a b. unfold pow2, p2. unfold Z.sub. rewrite Qpower_plus by discriminate. rewrite Qpower_opp.
  assert (E : forall n : nat, Qpower 2 (Z.of_nat n) == inject_Z (2 ^ Z.of_nat n)) by (intros n; rewrite Zpower_Qpower by lia; reflexivity).
  rewrite !E. reflexivity.
Qed.
Lemma rank_prob_form : forall M Q r, rank_prob M Q r * p2 (M * Q) == mform Q M r.
Proof.
  intros M Q r. unfold rank_prob.
  set (F := fold_left _ (seq 0 r) 1).
  assert (HF : forall k, (k <= r)%nat ->
    fold_left (fun product i => product * ((1 - pow2 (Z.of_nat i - Z.of_nat Q)) * (1 - pow2 (Z.of_nat i - Z.of_nat M)) /
       (1 - pow2 (Z.of_nat i - Z.of_nat r)))) (seq 0 k) 1 * p2 (k * Q) * p2 (k * M) ==
    fall Q k * fall M k / fold_left (fun p i => p * (p2 r - p2 i)) (seq 0 k) 1 * p2 (k * r) /\ ~ fold_left (fun p i => p * (p2 r - p2 i)) (seq 0 k) 1 == 0).
  { induction k as [|k IHk]; intros Hk; [split; [reflexivity|discriminate]|]. destruct IHk as [E1 E2]; [lia|].
    rewrite seq_S, !fold_left_app. cbn [fold_left plus]. rewrite !pow2_sub.
    set (A := fold_left _ (seq 0 k) 1) in *. set (B := fold_left _ (seq 0 k) 1) in *. clearbody A B.
    assert (H3 := p2_sub_nz k r Hk). assert (HQ := p2_nz Q). assert (HM := p2_nz M). assert (Hr := p2_nz r).
    split.
    - cbn [fall]. simpl Nat.mul. rewrite !p2_add.
      transitivity ((A * p2 (k * Q) * p2 (k * M)) * ((p2 Q - p2 k) * (p2 M - p2 k) / (p2 r - p2 k)) * p2 r).
      + field. repeat split; auto.
      + rewrite E1. field. split; auto.
    - intros K. apply Qmult_integral in K as [K|K]; auto. }
  destruct (HF r (le_n r)) as [E1 E2]. fold F in E1. clear HF.
  assert (Hfall : fold_left (fun p i => p * (p2 r - p2 i)) (seq 0 r) 1 == fall r r).
  { assert (X : forall k, fold_left (fun p i => p * (p2 r - p2 i)) (seq 0 k) 1 = fall r k).
    { induction k as [|k IHk]; [reflexivity|]. rewrite seq_S, fold_left_app, IHk. reflexivity. }
    rewrite X. reflexivity. }
  rewrite Hfall in E1, E2. clearbody F.
  assert (EP : pow2 (Z.of_nat r * (Z.of_nat Q + Z.of_nat M - Z.of_nat r) - Z.of_nat M * Z.of_nat Q) ==
               p2 (r * Q) * p2 (r * M) / (p2 (r * r) * p2 (M * Q))).
  { rewrite <- !p2_add, <- pow2_sub. apply Qpower_comp; [reflexivity|]. lia. }
  rewrite EP. unfold mform.
  assert (H1 := p2_nz (r * r)). assert (H2 := p2_nz (M * Q)).
  transitivity ((F * p2 (r * Q) * p2 (r * M)) / p2 (r * r)); [field; auto|]. rewrite E1. field. auto.
Qed.
