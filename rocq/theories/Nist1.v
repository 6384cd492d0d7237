(** Runs, longest run of ones and cumulative sums of the randomness tests. *)
From Coq Require Import Arith NArith ZArith QArith List Bool Lia.
From Verif Require Import Base Spec LinAlg Mem ModelRank ModelNist SpecNist LCCount.
Import ListNotations.
Local Open Scope nat_scope.

Lemma ones_app : forall a b, ones (a ++ b) = ones a + ones b.
Proof. intros. apply count_occ_app. Qed.
Lemma coz : forall bits, count_ones_zeroes bits = (length bits - ones bits, ones bits) /\ ones bits <= length bits.
Proof.
  intros bits. induction bits as [|x l IH] using rev_ind; [split; auto|]. destruct IH as [E H].
  unfold count_ones_zeroes in *. rewrite fold_left_app, E. cbn [fold_left]. rewrite ones_app, app_length. cbn [length].
  assert (O1 : ones [x] = if N.eq_dec x 1 then 1 else 0) by reflexivity. rewrite O1. destruct (N.eqb_spec x 1); destruct (N.eq_dec x 1); try congruence.
  - split; [f_equal|]; lia.
  - split; [f_equal|]; lia.
Qed.

(** ** Runs *)
Fixpoint changes (l : list N) : nat :=
  match l with
  | x :: l' => match l' with [] => 0 | y :: _ => (if N.eqb x y then 0 else 1) + changes l' end
  | [] => 0
  end.
Lemma changes_snoc : forall l x y, changes (l ++ [x; y]) = changes (l ++ [x]) + if N.eqb x y then 0 else 1.
Proof.
  induction l as [|a l IH]; intros x y; [simpl; lia|].
  destruct l as [|b l]; [simpl; destruct (N.eqb a x), (N.eqb x y); reflexivity|].
  specialize (IH x y). cbn [app changes] in *. rewrite IH. lia.
Qed.
Lemma firstn_S : forall (l : list N) k d, k < length l -> firstn (S k) l = firstn k l ++ [nth k l d].
Proof. induction l as [|a l IH]; intros k d H; simpl in H; [lia|]. destruct k; [reflexivity|]. cbn [firstn nth app]. rewrite <- IH by lia. reflexivity. Qed.
Lemma changes_runs : forall l, l <> [] -> runs l (1 + changes l).
Proof.
  induction l as [|x l IH]; intros H; [congruence|]. destruct l as [|y l].
  - exists [(x, 1)]. simpl. auto.
  - destruct IH as (bs & E & A & L); [discriminate|]. cbn [changes]. destruct bs as [|[b k] bs]; [discriminate|].
    destruct A as (A1 & A2 & A3). destruct k as [|k]; [lia|]. cbn [pieces repeat app] in E. injection E as E1 E2. subst b.
    destruct (N.eqb_spec x y) as [->|Hn].
    + exists ((y, S (S k)) :: bs). cbn [pieces repeat app alternating length] in *. rewrite E2. repeat split; auto; lia.
    + exists ((x, 1) :: (y, S k) :: bs). cbn [pieces repeat app alternating length] in *. rewrite E2. repeat split; auto; lia.
Qed.
Lemma changes_piece : forall k b l, changes (repeat b (S k) ++ l) = changes (b :: l).
Proof.
  induction k as [|k IH]; intros b l; [reflexivity|]. rewrite <- IH.
  change (repeat b (S (S k)) ++ l) with (b :: b :: (repeat b k ++ l)). cbn [repeat app changes]. rewrite N.eqb_refl. reflexivity.
Qed.
Lemma runs_changes : forall l r, l <> [] -> runs l r -> r = 1 + changes l.
Proof.
  intros l r Hl (bs & E & A & L). revert l r Hl E A L. induction bs as [|[b k] bs IH]; intros l r Hl E A L.
  - simpl in E. congruence.
  - destruct A as (A1 & A2 & A3). destruct k as [|k]; [lia|]. cbn [pieces] in E. subst l. rewrite changes_piece.
    cbn [length] in L. destruct bs as [|[b' k'] bs].
    + simpl. simpl in L. lia.
    + assert (Hk : 0 < k') by (destruct A3; auto). destruct k' as [|k']; [lia|].
      specialize (IH (pieces ((b', S k') :: bs)) (length ((b', S k') :: bs)) ltac:(cbn [pieces repeat app]; discriminate) eq_refl A3 eq_refl).
      cbn [pieces repeat app] in *. cbn [changes]. apply N.eqb_neq in A2. rewrite A2. cbn [changes] in IH. lia.
Qed.

Lemma vobs_wp : forall bits, bits <> [] ->
  for_up 0 (length bits - 1) (fun i vobs => x <- aget bits i ;; y <- aget bits (i + 1) ;; Ok (if N.eqb x y then vobs else vobs + 1)) 1
    = Ok (1 + changes bits).
Proof.
  intros bits Hne. assert (HL : 0 < length bits) by (destruct bits; [congruence|simpl; lia]).
  assert (W : wp (for_up 0 (length bits - 1) (fun i vobs => x <- aget bits i ;; y <- aget bits (i + 1) ;; Ok (if N.eqb x y then vobs else vobs + 1)) 1)
    (fun v => v = 1 + changes bits)).
  { apply (wp_for_up _ (fun t v => v = 1 + changes (firstn (S t) bits))); [lia| | |].
    - destruct bits; [congruence|reflexivity].
    - intros i v _ Hi ->. apply wp_bind, (wp_aget _ _ _ 0%N); [lia|]. apply wp_bind, (wp_aget _ _ _ 0%N); [lia|]. apply wp_ok.
      rewrite (firstn_S bits (S i) 0%N), (firstn_S bits i 0%N) by lia. rewrite <- app_assoc. cbn [app].
      rewrite changes_snoc. replace (i + 1) with (S i) by lia. destruct (N.eqb (nth i bits 0%N) (nth (S i) bits 0%N)); lia.
    - intros v ->. replace (S (length bits - 1)) with (length bits) by lia. rewrite firstn_all. reflexivity. }
  apply wp_exists in W as (v & -> & ->). reflexivity.
Qed.

(** ** The longest run of ones *)
Definition lr_step (st : nat * nat) (x : N) : nat * nat :=
  let '(run, longest) := st in
  if N.eqb x 1 then (run + 1, if Nat.ltb longest (run + 1) then run + 1 else longest) else (0, longest).
Definition lr (w : list N) : nat * nat := fold_left lr_step w (0, 0).
Lemma lr_snoc : forall w x, lr (w ++ [x]) = lr_step (lr w) x.
Proof. intros. unfold lr. rewrite fold_left_app. reflexivity. Qed.

Lemma lr_inv : forall w, let '(t, l) := lr w in
  t <= l /\ l <= length w /\ (forall j, j < t -> nth (length w - 1 - j) w 0%N = 1%N) /\
  (t < length w -> nth (length w - 1 - t) w 0%N <> 1%N) /\ longest_is w l.
Proof.
  intros w. induction w as [|x w IH] using rev_ind.
  - simpl. repeat split; auto; try (intros; lia). exists 0. split; [simpl; lia|intros; lia].
    intros r (i & H & _). simpl in H. lia.
  - rewrite lr_snoc. destruct (lr w) as [t l]. destruct IH as (H1 & H2 & H3 & H4 & (i0 & Hi0 & Hi1) & H6).
    assert (HL : length (w ++ [x]) = S (length w)) by (rewrite app_length; simpl; lia).
    assert (Hn : forall j, j < length w -> nth j (w ++ [x]) 0%N = nth j w 0%N) by (intros; apply app_nth1; auto).
    assert (Hx : nth (length w) (w ++ [x]) 0%N = x) by apply nth_middle.
    assert (Hold : forall r', ones_row w r' -> ones_row (w ++ [x]) r').
    { intros r' (i & A & B). exists i. split; [lia|]. intros j Hj. rewrite Hn by lia. auto. }
    unfold lr_step. destruct (N.eqb_spec x 1) as [->|Hx1].
    + assert (Hrow : ones_row (w ++ [1%N]) (t + 1)).
      { exists (length w - t). split; [lia|]. intros j Hj. destruct (Nat.eq_dec j t) as [->|].
        - replace (length w - t + t) with (length w) by lia. exact Hx.
        - rewrite Hn by lia. replace (length w - t + j) with (length w - 1 - (t - 1 - j)) by lia. apply H3. lia. }
      assert (Hmax : forall r', ones_row (w ++ [1%N]) r' -> r' <= l \/ r' <= t + 1).
      { intros r' (i & A & B). destruct (Nat.le_gt_cases (i + r') (length w)).
        - left. apply H6. exists i. split; auto. intros j Hj. rewrite <- Hn by lia. auto.
        - right. destruct (Nat.le_gt_cases r' (t + 1)); auto. exfalso. apply H4; [lia|].
          specialize (B (length w - 1 - t - i) ltac:(lia)). rewrite Hn in B by lia. rewrite <- B. f_equal. lia. }
      refine (conj _ (conj _ (conj _ (conj _ (conj _ _))))).
      * destruct (Nat.ltb_spec l (t + 1)); lia.
      * destruct (Nat.ltb_spec l (t + 1)); [|lia]. destruct Hrow as (i & A & _). lia.
      * intros j Hj. rewrite HL. destruct j as [|j]; [replace (S (length w) - 1 - 0) with (length w) by lia; exact Hx|].
        rewrite Hn by lia. replace (S (length w) - 1 - S j) with (length w - 1 - j) by lia. apply H3. lia.
      * rewrite HL. intros Ht. rewrite Hn by lia. replace (S (length w) - 1 - (t + 1)) with (length w - 1 - t) by lia. apply H4. lia.
      * destruct (Nat.ltb_spec l (t + 1)); auto. apply Hold. exists i0. auto.
      * intros r' Hr. apply Hmax in Hr. destruct (Nat.ltb_spec l (t + 1)); lia.
    + refine (conj _ (conj _ (conj _ (conj _ (conj _ _))))); try lia.
      * intros _. rewrite HL. replace (S (length w) - 1 - 0) with (length w) by lia. rewrite Hx. exact Hx1.
      * apply Hold. exists i0. auto.
      * intros r' (i & A & B). apply H6. destruct (Nat.le_gt_cases (i + r') (length w)).
        -- exists i. split; auto. intros j Hj. rewrite <- Hn by lia. auto.
        -- destruct r' as [|r']; [exists 0; split; [lia|intros; lia]|]. exfalso. apply Hx1. rewrite <- Hx. rewrite <- (B r') by lia. f_equal. lia.
Qed.
Lemma lr_longest : forall w, longest_is w (snd (lr w)).
Proof. intros w. assert (H := lr_inv w). destruct (lr w) as [t l]. apply H. Qed.
Lemma longest_unique : forall w a b, longest_is w a -> longest_is w b -> a = b.
Proof. intros w a b [A1 A2] [B1 B2]. apply A2 in B1. apply B2 in A1. lia. Qed.
Lemma longest_run_ok : forall M w, length w = M -> longest_run M w = Ok (snd (lr w)).
Proof.
  intros M w HL. unfold longest_run.
  assert (W : wp (for_up 0 M (fun j st => let '(run, longest) := st in x <- aget w j ;;
      if N.eqb x 1 then Ok (run + 1, if Nat.ltb longest (run + 1) then run + 1 else longest) else Ok (0, longest)) (0, 0))
    (fun st => st = lr w)).
  { apply (wp_for_up _ (fun t st => st = lr (firstn t w))); [lia|reflexivity| |].
    - intros i st _ Hi ->. rewrite (firstn_S w i 0%N), lr_snoc by lia. destruct (lr (firstn i w)) as [run longest].
      apply wp_bind, (wp_aget _ _ _ 0%N); [lia|]. unfold lr_step. destruct (N.eqb (nth i w 0%N) 1); apply wp_ok; reflexivity.
    - intros st ->. rewrite <- HL, firstn_all. reflexivity. }
  apply wp_exists in W as (st & -> & ->). cbn [bind]. destruct (lr w). reflexivity.
Qed.
