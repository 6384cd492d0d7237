(** How many sequences of n bits have linear complexity L. *)
From Coq Require Import Arith NArith ZArith QArith List Bool Lia.
From Verif Require Import Base Spec LinAlg ModelRank ModelBM SpecBM BM.
Import ListNotations.
Local Open Scope nat_scope.

(** ** One more bit *)

Lemma inv_exists : forall n s N, 0 < n -> N <= n -> exists C B L m1, inv n s N C B L m1.
Proof.
  intros n s N Hn. induction N as [|N IH]; intros HN.
  - exists (fun i => i =? 0), (fun i => i =? 0), 0, 0. apply inv_0; auto. intros [|i] H; [lia|reflexivity].
  - destruct IH as (C & B & L & m1 & HI); [lia|]. destruct (disc s C L N) eqn:E.
    + destruct (Nat.le_gt_cases (2 * L) N).
      * do 4 eexists. apply inv_grow; eauto.
      * do 4 eexists. apply inv_keep; eauto.
    + do 4 eexists. apply inv_same; eauto.
Qed.
Lemma inv_lincomp : forall n s N C B L m1, N <= n -> inv n s N C B L m1 -> lincomp N s L.
Proof.
  intros n s N C B L m1 HN (I1 & I2 & I3 & I4 & I5 & _). split; auto. exists (fun i => C (S i)). apply (disc_fail n); auto.
Qed.

Lemma lfsr_ext : forall n s s' L f, (forall k, k < n -> s k = s' k) -> lfsr n s L f -> lfsr n s' L f.
Proof.
  intros n s s' L f E H k H1 H2. rewrite <- E by auto. rewrite H by auto. apply xsum_ext. intros i Hi. rewrite E by lia. reflexivity.
Qed.
Lemma lincomp_ext : forall n s s' L, (forall k, k < n -> s k = s' k) -> lincomp n s L -> lincomp n s' L.
Proof.
  intros n s s' L E [(f & Hf) H]. split.
  - exists f. apply (lfsr_ext n s); auto.
  - intros L' f' H'. apply (H L' f'). apply (lfsr_ext n s'); auto. intros; symmetry; auto.
Qed.

Definition snoc (s : nat -> bool) (n : nat) (b : bool) : nat -> bool := fun k => if k =? n then b else s k.
(** the next bit: one value keeps the complexity L, the other makes it max(L, n + 1 - L) *)
Lemma lincomp_snoc : forall n s L, lincomp n s L -> exists p,
  lincomp (S n) (snoc s n p) L /\ lincomp (S n) (snoc s n (negb p)) (Nat.max L (n + 1 - L)).
Proof.
  intros n s L H. destruct (inv_exists (S n) s n) as (C & B & L' & m1 & HI); try lia.
  assert (L' = L) by (apply (lincomp_unique n s); [apply (inv_lincomp (S n) s n C B L' m1); auto|exact H]). subst L'.
  assert (HL : L <= n) by apply HI. assert (HC : C 0 = true) by apply HI.
  set (p := xsum L (fun i => C (S i) && s (n - 1 - i))). exists p.
  assert (E : forall b, inv (S n) (snoc s n b) n C B L m1).
  { intros b. destruct HI as (I1 & I2 & I3 & I4 & I5 & I6 & I7 & I8 & I9 & I10 & I11).
    assert (X : forall D l k, k < n -> disc (snoc s n b) D l k = disc s D l k).
    { intros D l k Hk. apply xsum_ext. intros i Hi. unfold snoc. destruct (Nat.eqb_spec (k - i) n); [lia|reflexivity]. }
    refine (conj I1 (conj I2 (conj I3 (conj _ (conj _ (conj I6 (conj I7 (conj I8 (conj I9 (conj I10 _)))))))))).
    - intros k H1 H2. rewrite X by auto. auto.
    - intros l f Hf. apply (I5 l f). apply (lfsr_ext n (snoc s n b)); auto. intros k Hk. unfold snoc.
      destruct (Nat.eqb_spec k n); [lia|reflexivity].
    - intros Hm. destruct (I11 Hm) as (J1 & J2 & J3). refine (conj J1 (conj _ _)).
      + intros k H1 H2. rewrite X by lia. auto.
      + rewrite X by lia. auto. }
  assert (D : forall b, disc (snoc s n b) C L n = xorb b p).
  { intros b. rewrite disc_lfsr by auto. f_equal.
    - unfold snoc. rewrite Nat.eqb_refl. reflexivity.
    - apply xsum_ext. intros i Hi. unfold snoc. destruct (Nat.eqb_spec (n - 1 - i) n); [lia|reflexivity]. }
  split.
  - apply (inv_lincomp (S n) _ _ C B L m1); auto. apply inv_same; auto. rewrite D. apply xorb_nilpotent.
  - assert (Hd : disc (snoc s n (negb p)) C L n = true) by (rewrite D; destruct p; reflexivity).
    destruct (Nat.le_gt_cases (2 * L) n) as [H2|H2].
    + rewrite Nat.max_r by lia. eapply (inv_lincomp (S n)); [lia|]. apply inv_grow; eauto.
    + rewrite Nat.max_l by lia. eapply (inv_lincomp (S n)); [lia|]. apply inv_keep; eauto.
Qed.

(** ** All words of n bits *)

Fixpoint words (n : nat) : list (list N) :=
  match n with
  | O => [[]]
  | S n' => map (fun w => w ++ [0%N]) (words n') ++ map (fun w => w ++ [1%N]) (words n')
  end.
Lemma words_in : forall n w, In w (words n) <-> length w = n /\ forall x, In x w -> x = 0%N \/ x = 1%N.
Proof.
  induction n as [|n IH]; intros w; simpl.
  - split.
    + intros [<-|[]]. split; auto. intros x [].
    + intros [H _]. destruct w; [auto|discriminate].
  - rewrite in_app_iff, !in_map_iff. split.
    + intros [(v & <- & Hv)|(v & <- & Hv)]; apply IH in Hv as [HL Hx]; rewrite app_length; simpl;
        (split; [lia|]); intros x Hi; apply in_app_iff in Hi as [Hi|[<-|[]]]; auto.
    + intros [HL Hx]. destruct (exists_last (l := w)) as (v & x & ->); [destruct w; discriminate|].
      rewrite app_length in HL; simpl in HL.
      assert (Hv : In v (words n)) by (apply IH; split; [lia|]; intros y Hy; apply Hx, in_app_iff; auto).
      destruct (Hx x) as [->| ->]; [apply in_app_iff; simpl; auto| |]; [left|right]; exists v; auto.
Qed.
Lemma words_nodup : forall n, NoDup (words n).
Proof.
  assert (X : forall x l, NoDup l -> NoDup (map (fun w => w ++ [x : N]) l)).
  { intros x l H. induction H as [|w l Hn H IH]; simpl; constructor; auto.
    intros Hi. apply in_map_iff in Hi as (v & E & Hv). apply app_inj_tail in E as [-> _]. auto. }
  induction n as [|n IH]; simpl.
  - constructor; [intros []|constructor].
  - assert (A := X 0%N _ IH). assert (B := X 1%N _ IH).
    assert (D : forall w, In w (map (fun w => w ++ [0%N]) (words n)) -> ~ In w (map (fun w => w ++ [1%N]) (words n))).
    { intros w H1 H2. apply in_map_iff in H1 as (v & <- & _). apply in_map_iff in H2 as (u & E & _).
      apply app_inj_tail in E as [_ E]. discriminate. }
    revert A D. generalize (map (fun w => w ++ [0%N]) (words n)). intros l A D. induction A as [|w l Hw A IHA]; simpl; auto.
    constructor.
    + rewrite in_app_iff. intros [H|H]; [auto|apply (D w); simpl; auto].
    + apply IHA. intros v Hv. apply D. simpl; auto.
Qed.

(** the complexity of a word as a function *)
Definition lc (w : list N) : nat := match berelekamp_massey w with Ok (L, _) => L | UB => 0 end.
Lemma lc_spec : forall w, (forall x, In x w -> x = 0%N \/ x = 1%N) -> lincomp (length w) (seqbits w) (lc w).
Proof.
  intros w Hw. destruct w as [|x w].
  - split; [exists (fun _ => false); intros k H1 H2; simpl in H2; lia|]. intros; unfold lc; simpl. lia.
  - destruct (wp_exists _ _ _ (bm_wp (x :: w) ltac:(discriminate) Hw)) as ([L p] & E & H & _).
    unfold lc. rewrite E. exact H.
Qed.
Lemma seqbits_snoc : forall w x k, k < S (length w) ->
  snoc (seqbits w) (length w) (N.eqb x 1) k = seqbits (w ++ [x]) k.
Proof.
  intros w x k Hk. unfold snoc, seqbits. destruct (Nat.eqb_spec k (length w)) as [->|].
  - rewrite nth_middle. reflexivity.
  - rewrite app_nth1 by lia. reflexivity.
Qed.
Lemma lc_snoc : forall w, (forall x, In x w -> x = 0%N \/ x = 1%N) ->
  let L := lc w in let L1 := Nat.max L (length w + 1 - L) in
  (lc (w ++ [0%N]) = L /\ lc (w ++ [1%N]) = L1) \/ (lc (w ++ [0%N]) = L1 /\ lc (w ++ [1%N]) = L).
Proof.
  intros w Hw L L1. destruct (lincomp_snoc _ _ _ (lc_spec w Hw)) as (p & H1 & H2). fold L in H1, H2. fold L1 in H2.
  assert (X : forall x M, x = 0%N \/ x = 1%N -> lincomp (S (length w)) (snoc (seqbits w) (length w) (N.eqb x 1)) M -> lc (w ++ [x]) = M).
  { intros x M Hx HM. apply (lincomp_unique (S (length w)) (seqbits (w ++ [x]))).
    - assert (Y := lc_spec (w ++ [x])). rewrite app_length in Y. simpl in Y. rewrite Nat.add_1_r in Y. apply Y.
      intros y Hy. apply in_app_iff in Hy as [Hy|[<-|[]]]; auto.
    - eapply lincomp_ext; [|exact HM]. apply seqbits_snoc. }
  destruct p; [right|left]; split; apply X; auto.
Qed.

(** ** Counting *)

Definition cnt (n L : nat) : N := N.of_nat (length (filter (fun w => lc w =? L) (words n))).
Definition formula (n L : nat) : N :=
  if L =? 0 then 1%N else if n <? L then 0%N else (2 ^ N.of_nat (Nat.min (2 * n - 2 * L) (2 * L - 1)))%N.

Lemma filter_map_len : forall A B (f : A -> B) p l, length (filter p (map f l)) = length (filter (fun x => p (f x)) l).
Proof. induction l as [|a l IH]; simpl; auto. destruct (p (f a)); simpl; auto. Qed.
Lemma cnt_step : forall n L, cnt (S n) L =
  ((if (n <? 2 * L)%nat then 2 else 1) * cnt n L + (if ((n + 2 <=? 2 * L) && (L <=? n + 1))%nat then cnt n (n + 1 - L) else 0))%N.
Proof.
  intros n L. unfold cnt. simpl words. rewrite filter_app, app_length, !filter_map_len.
  assert (HW : forall w, In w (words n) -> length w = n /\ forall x, In x w -> x = 0%N \/ x = 1%N) by (intros w; apply words_in).
  revert HW. generalize (words n). intros l HW.
  rewrite Nat2N.inj_add. induction l as [|w l IH]; [destruct (n <? 2 * L), ((n + 2 <=? 2 * L) && (L <=? n + 1)); reflexivity|].
  specialize (IH (fun v Hv => HW v (or_intror Hv))). destruct (HW w (or_introl eq_refl)) as [HL Hw].
  assert (Hlc : lc w <= n).
  { assert (Y := lc_spec w Hw). destruct Y as [_ Y]. rewrite HL in Y. apply (Y n (fun _ => false)). intros k H1 H2. lia. }
  assert (S := lc_snoc w Hw). cbv zeta in S. rewrite HL in S.
  cbn [filter].
  assert (A : forall (b : bool) (m : list (list N)), N.of_nat (length (if b then w :: m else m)) = ((if b then 1 else 0) + N.of_nat (length m))%N).
  { intros [] m; [rewrite <- (Nat2N.inj_add 1)|]; reflexivity. }
  rewrite !A.
  set (a0 := N.of_nat (length (filter (fun x => lc (x ++ [0%N]) =? L) l))) in *.
  set (a1 := N.of_nat (length (filter (fun x => lc (x ++ [1%N]) =? L) l))) in *.
  set (b0 := N.of_nat (length (filter (fun x => lc x =? L) l))) in *.
  set (b1 := N.of_nat (length (filter (fun x => lc x =? n + 1 - L) l))) in *.
  clearbody a0 a1 b0 b1. set (m := lc w) in *.
  assert (T : ((if (lc (w ++ [0%N]) =? L)%nat then 1 else 0) + (if (lc (w ++ [1%N]) =? L)%nat then 1 else 0) =
    (if (n <? 2 * L)%nat then 2 else 1) * (if (m =? L)%nat then 1 else 0) +
    (if ((n + 2 <=? 2 * L) && (L <=? n + 1))%nat then (if (m =? n + 1 - L)%nat then 1 else 0) else 0))%N).
  { assert (T1 : ((if (lc (w ++ [0%N]) =? L)%nat then 1 else 0) + (if (lc (w ++ [1%N]) =? L)%nat then 1 else 0) =
      (if (m =? L)%nat then 1 else 0) + (if (Nat.max m (n + 1 - m) =? L)%nat then 1 else 0))%N).
    { destruct S as [[-> ->]|[-> ->]]; lia. }
    rewrite T1. clear T1 S A IH.
    destruct (Nat.eqb_spec m L), (Nat.eqb_spec (Nat.max m (n + 1 - m)) L), (Nat.ltb_spec n (2 * L)),
      (Nat.leb_spec (n + 2) (2 * L)), (Nat.leb_spec L (n + 1)), (Nat.eqb_spec m (n + 1 - L)); simpl; try reflexivity; lia. }
  destruct ((n + 2 <=? 2 * L) && (L <=? n + 1)); lia.
Qed.
Lemma cnt_formula : forall n L, cnt n L = formula n L.
Proof.
  induction n as [|n IH]; intros L.
  - unfold cnt, formula. simpl words. unfold filter. change (lc []) with 0. destruct L as [|L]; [reflexivity|].
    simpl. reflexivity.
  - rewrite cnt_step, !IH. unfold formula.
    assert (P : forall a b c, a = S b -> b = c -> (2 * 2 ^ N.of_nat b)%N = (2 ^ N.of_nat a)%N).
    { intros a b c -> _. rewrite Nat2N.inj_succ, N.pow_succ_r'. reflexivity. }
    destruct (Nat.eqb_spec L 0) as [->|HL].
    { rewrite (proj2 (Nat.ltb_ge n (2 * 0))) by lia. rewrite (proj2 (Nat.leb_gt (n + 2) (2 * 0))) by lia. reflexivity. }
    destruct (Nat.ltb_spec n (2 * L)) as [H1|H1].
    + destruct (Nat.leb_spec (n + 2) (2 * L)) as [H2|H2].
      * destruct (Nat.leb_spec L (n + 1)) as [H3|H3]; simpl andb; cbv iota.
        -- destruct (Nat.ltb_spec n L) as [H4|H4].
           ++ assert (L = n + 1) by lia. subst L. replace (n + 1 - (n + 1)) with 0 by lia. simpl Nat.eqb. cbv iota.
              rewrite (proj2 (Nat.ltb_ge (S n) (n + 1))) by lia. replace (2 * S n - 2 * (n + 1)) with 0 by lia.
              reflexivity.
           ++ rewrite (proj2 (Nat.eqb_neq (n + 1 - L) 0)) by lia. rewrite (proj2 (Nat.ltb_ge n (n + 1 - L))) by lia.
              rewrite (proj2 (Nat.ltb_ge (S n) L)) by lia.
              rewrite (Nat.min_l (2 * n - 2 * L)) by lia. rewrite (Nat.min_r (2 * n - 2 * (n + 1 - L))) by lia.
              rewrite (Nat.min_l (2 * S n - 2 * L)) by lia.
              replace (2 * (n + 1 - L) - 1) with (S (2 * n - 2 * L)) by lia.
              replace (2 * S n - 2 * L) with (S (S (2 * n - 2 * L))) by lia.
              rewrite !Nat2N.inj_succ, !N.pow_succ_r'. lia.
        -- rewrite (proj2 (Nat.ltb_lt n L)) by lia. rewrite (proj2 (Nat.ltb_lt (S n) L)) by lia. reflexivity.
      * simpl andb. cbv iota. assert (2 * L = n + 1) by lia.
        rewrite (proj2 (Nat.ltb_ge n L)) by lia. rewrite (proj2 (Nat.ltb_ge (S n) L)) by lia. rewrite N.add_0_r.
        rewrite (Nat.min_l (2 * n - 2 * L)) by lia. rewrite (Nat.min_r (2 * S n - 2 * L)) by lia.
        replace (2 * L - 1) with (S (2 * n - 2 * L)) by lia. apply (P _ _ _ eq_refl eq_refl).
    + rewrite (proj2 (Nat.leb_gt (n + 2) (2 * L))) by lia. simpl andb. cbv iota.
      rewrite (proj2 (Nat.ltb_ge n L)) by lia. rewrite (proj2 (Nat.ltb_ge (S n) L)) by lia.
      rewrite (Nat.min_r (2 * n - 2 * L)) by lia. rewrite (Nat.min_r (2 * S n - 2 * L)) by lia. lia.
Qed.

(** ** The classes of the test *)

Definition sumN (g : nat -> N) (s : list nat) : N := fold_right (fun L a => (g L + a)%N) 0%N s.
Lemma sumN_ext : forall g h s, (forall L, g L = h L) -> sumN g s = sumN h s.
Proof. intros g h s H. induction s as [|L s IH]; simpl; auto. rewrite H, IH. reflexivity. Qed.
Definition has {A} (f : A -> nat) (l : list A) (L : nat) : N := N.of_nat (length (filter (fun a => Nat.eqb (f a) L) l)).
Lemma filter_classes : forall A (f : A -> nat) (p : nat -> bool) n l, (forall a, In a l -> f a < n) ->
  N.of_nat (length (filter (fun a => p (f a)) l)) = sumN (fun L => if p L then has f l L else 0%N) (seq 0 n).
Proof.
  intros A f p n l. induction l as [|a l IH]; intros H.
  - simpl. induction (seq 0 n) as [|L s IHs]; simpl; auto. rewrite <- IHs. destruct (p L); reflexivity.
  - specialize (IH (fun b Hb => H b (or_intror Hb))). specialize (H a (or_introl eq_refl)). cbn [filter].
    assert (Hh : forall L, has f (a :: l) L = ((if Nat.eqb (f a) L then 1 else 0) + has f l L)%N).
    { intros L. unfold has. cbn [filter]. destruct (Nat.eqb (f a) L); [|reflexivity]. cbn [length]. lia. }
    assert (X : forall s, NoDup s -> sumN (fun L => if p L then has f (a :: l) L else 0%N) s =
      ((if existsb (Nat.eqb (f a)) s then (if p (f a) then 1 else 0) else 0) +
       sumN (fun L => if p L then has f l L else 0%N) s)%N).
    { clear IH. intros s Hs. induction Hs as [|L s Hn Hs IH]; auto. cbn [sumN fold_right existsb]. fold (sumN (fun L => if p L then has f (a :: l) L else 0%N) s).
      fold (sumN (fun L => if p L then has f l L else 0%N) s). rewrite IH, Hh. clear IH.
      destruct (Nat.eqb_spec (f a) L) as [<-|].
      - assert (E : existsb (Nat.eqb (f a)) s = false).
        { apply not_true_iff_false. intros E. apply existsb_exists in E as (y & Hy & E). apply Nat.eqb_eq in E. subst y. auto. }
        rewrite E. simpl orb. cbv iota. destruct (p (f a)); lia.
      - simpl orb. destruct (p L); lia. }
    rewrite X by apply seq_NoDup. rewrite <- IH.
    rewrite (proj2 (existsb_exists (Nat.eqb (f a)) (seq 0 n))) by (exists (f a); split; [apply in_seq; lia|apply Nat.eqb_refl]).
    destruct (p (f a)); cbn [length]; lia.
Qed.
Lemma class_count : forall n (p : nat -> bool),
  N.of_nat (length (filter (fun w => p (lc w)) (words n))) = sumN (fun L => if p L then formula n L else 0%N) (seq 0 (S n)).
Proof.
  intros n p. rewrite (filter_classes _ lc p (S n)).
  - apply sumN_ext. intros L. change (has lc (words n) L) with (cnt n L). rewrite cnt_formula. reflexivity.
  - intros w Hw. apply words_in in Hw as [HL Hw]. destruct (lc_spec w Hw) as [_ Y]. rewrite HL in Y.
    assert (lc w <= n); [|lia]. apply (Y n (fun _ => false)). intros k H1 H2. lia.
Qed.
(** the class of a block of 512 bits *)
Definition cls (L : nat) : nat := if L <=? 253 then 0 else if 259 <=? L then 6 else L - 253.
Lemma cls_check : forallb (fun L => Nat.eqb (lc_class (lc_T 512 L)) (cls L)) (seq 0 513) = true.
Proof. vm_compute. reflexivity. Qed.
Lemma cls_ok : forall L, L <= 512 -> lc_class (lc_T 512 L) = cls L.
Proof.
  intros L HL. assert (X := cls_check). rewrite forallb_forall in X. apply Nat.eqb_eq, X, in_seq. lia.
Qed.
(** the reference values are the exact probabilities, up to 10^-6 *)
Definition close (a b : Q) : bool := Qle_bool (a - b) (1 # 1000000) && Qle_bool (b - a) (1 # 1000000).
Definition class_frac (k : nat) : Q :=
  (inject_Z (Z.of_N (sumN (fun L => if Nat.eqb (cls L) k then formula 512 L else 0%N) (seq 0 513))) / inject_Z (2 ^ 512))%Q.
Lemma pi_ok : forallb (fun k => close (class_frac k) (nth k lc_pi 0%Q)) (seq 0 7) = true.
Proof. vm_compute. reflexivity. Qed.
Lemma close_le : forall a b, close a b = true -> (a - b <= 1 # 1000000)%Q /\ (b - a <= 1 # 1000000)%Q.
Proof. intros a b H. unfold close in H. apply andb_true_iff in H as [H1 H2]. split; apply Qle_bool_iff; auto. Qed.
Lemma pi_le : forall k, k < 7 -> (class_frac k - nth k lc_pi 0 <= 1 # 1000000)%Q /\ (nth k lc_pi 0 - class_frac k <= 1 # 1000000)%Q.
Proof.
  intros k Hk. apply close_le. assert (X := pi_ok). rewrite forallb_forall in X. apply (X k). apply in_seq. lia.
Qed.
Lemma class_frac_eq : forall k z, z = Z.of_N (sumN (fun L => if Nat.eqb (cls L) k then formula 512 L else 0%N) (seq 0 513)) ->
  (inject_Z z / inject_Z (2 ^ 512))%Q = class_frac k.
Proof. intros k z ->. reflexivity. Qed.
