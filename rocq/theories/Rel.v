(** Pairs of runs: the significant bits of a matrix determine what invs does; bits outside
    them (the high nibble of 4-bit rows) do not matter. *)
From Coq Require Import Arith NArith List Bool Lia.
From Verif Require Import Base Tables Model Spec LinAlg Mem Cons.
Import ListNotations.

Definition rp {A B} (c1 : res A) (c2 : res B) (R : A -> B -> Prop) : Prop :=
  match c1, c2 with
  | Ok a, Ok b => R a b
  | UB, UB => True
  | _, _ => False
  end.

Lemma rp_bind : forall A B A' B' (c1 : res A) (c2 : res B) (k1 : A -> res A') (k2 : B -> res B') S R,
  rp c1 c2 S -> (forall a b, S a b -> rp (k1 a) (k2 b) R) -> rp (bind c1 k1) (bind c2 k2) R.
Proof. intros A B A' B' [a|] [b|] k1 k2 S R H HK; simpl in *; auto; contradiction. Qed.

Lemma rp_up_n : forall St (R : St -> St -> Prop) b1 b2 k a s1 s2,
  R s1 s2 -> (forall i x y, a <= i -> i < a + k -> R x y -> rp (b1 i x) (b2 i y) R) ->
  rp (up_n k a b1 s1) (up_n k a b2 s2) R.
Proof.
  intros St R b1 b2 k; induction k as [|k IH]; intros a s1 s2 H HB; simpl; auto.
  eapply rp_bind; [apply HB; auto; lia|]. intros x y Hxy. apply IH; auto.
  intros i x' y' H1 H2. apply HB; lia.
Qed.
Lemma rp_for_up : forall St (R : St -> St -> Prop) b1 b2 a b s1 s2,
  R s1 s2 -> (forall i x y, a <= i -> i < b -> R x y -> rp (b1 i x) (b2 i y) R) ->
  rp (for_up a b b1 s1) (for_up a b b2 s2) R.
Proof. intros. apply rp_up_n; auto. intros. apply H0; auto; lia. Qed.
Lemma rp_down_n : forall St (R : St -> St -> Prop) b1 b2 k a s1 s2,
  R s1 s2 -> (forall i x y, a <= i -> i < a + k -> R x y -> rp (b1 i x) (b2 i y) R) ->
  rp (down_n k a b1 s1) (down_n k a b2 s2) R.
Proof.
  intros St R b1 b2 k; induction k as [|k IH]; intros a s1 s2 H HB; simpl; auto.
  eapply rp_bind; [apply HB; auto; lia|]. intros x y Hxy. apply IH; auto.
  intros i x' y' H1 H2. apply HB; lia.
Qed.
Lemma rp_for_down : forall St (R : St -> St -> Prop) b1 b2 a b s1 s2,
  R s1 s2 -> (forall i x y, b <= i -> i < a -> R x y -> rp (b1 i x) (b2 i y) R) ->
  rp (for_down a b b1 s1) (for_down a b b2 s2) R.
Proof. intros. apply rp_down_n; auto. intros. apply H0; auto; lia. Qed.
Lemma find_n_ext : forall t1 t2 k a, (forall i, a <= i -> i < a + k -> t1 i = t2 i) ->
  find_n k a t1 = find_n k a t2.
Proof.
  intros t1 t2 k; induction k as [|k IH]; intros a H; simpl; auto.
  rewrite H by lia. destruct (t2 a) as [[]|]; simpl; auto. apply IH. intros. apply H; lia.
Qed.
Lemma rp_eq : forall A B (c1 c2 : res A) (k1 k2 : A -> res B), c1 = c2 ->
  forall R, (forall a, c1 = Ok a -> rp (k1 a) (k2 a) R) -> rp (bind c1 k1) (bind c2 k2) R.
Proof. intros A B c1 c2 k1 k2 <- R H. destruct c1; simpl; auto. Qed.

Section Sig.
  Variable w : width.
  (** same significant bits *)
  Definition sig (m1 m2 : mat) : Prop :=
    shapeM w m1 /\ shapeM w m2 /\
    forall i k q, (q < N.of_nat (wb w))%N -> N.testbit (word m1 i k) q = N.testbit (word m2 i k) q.
  Definition sig1 (x y : mat * mat) : Prop := sig (fst x) (fst y) /\ snd x = snd y.

  Lemma sig_bits : forall m1 m2, shapeM w m1 -> shapeM w m2 ->
    feq (dim w) (mbit w m1) (mbit w m2) -> sig m1 m2.
  Proof.
    intros m1 m2 S1 S2 HB. split; auto. split; auto. intros i k q Hq.
    destruct (Nat.lt_ge_cases i (dim w)) as [Hi|Hi].
    2:{ unfold word. destruct S1, S2. rewrite (nth_overflow m1), (nth_overflow m2) by lia.
        destruct k; reflexivity. }
    destruct (Nat.lt_ge_cases k (nw w)) as [Hk|Hk].
    2:{ unfold word. rewrite (nth_overflow (nth i m1 [])), (nth_overflow (nth i m2 [])); auto;
        rewrite (shapeM_row w); auto. }
    assert (Hn : N.to_nat q < wb w) by lia.
    pose proof (HB i (wb w * k + (wb w - 1 - N.to_nat q)) Hi) as H.
    unfold mbit in H. rewrite div_block, mod_block in H by lia.
    replace (wb w - 1 - (wb w - 1 - N.to_nat q)) with (N.to_nat q) in H by lia.
    rewrite N2Nat.id in H. apply H. apply block_lt_dim; auto; lia.
  Qed.
  Lemma sig_bit_test : forall m1 m2 i b c, sig m1 m2 -> bit_test w m1 i b c = bit_test w m2 i b c.
  Proof.
    intros m1 m2 i b c (S1 & S2 & H). unfold bit_test.
    destruct (Nat.lt_ge_cases i (dim w)) as [Hi|Hi].
    2:{ unfold mget, aget. destruct S1, S2.
        rewrite (proj2 (nth_error_None m1 i)), (proj2 (nth_error_None m2 i)) by lia. reflexivity. }
    destruct (Nat.lt_ge_cases b (nw w)) as [Hb|Hb].
    2:{ unfold mget, aget. rewrite (nth_error_nth' m1 []), (nth_error_nth' m2 []) by (destruct S1, S2; lia).
        cbn [bind]. rewrite (proj2 (nth_error_None (nth i m1 []) b)), (proj2 (nth_error_None (nth i m2 []) b));
        auto; rewrite (shapeM_row w); auto. }
    destruct (wp_exists _ _ _ (wp_mget w m1 i b (fun x => x = word m1 i b) S1 Hi Hb eq_refl)) as (x1 & E1 & ->).
    destruct (wp_exists _ _ _ (wp_mget w m2 i b (fun x => x = word m2 i b) S2 Hi Hb eq_refl)) as (x2 & E2 & ->).
    rewrite E1, E2. cbn [bind]. destruct (Nat.lt_ge_cases c (wb w)) as [Hc|Hc].
    - unfold aget. rewrite (nth_error_nth' (idt w) 0%N) by (rewrite length_idt; lia).
      rewrite nth_idt by lia. cbn [bind]. rewrite !land_pow2_eqb, H by lia. reflexivity.
    - unfold aget. rewrite (proj2 (nth_error_None _ _)) by (rewrite length_idt; lia). reflexivity.
  Qed.
  Lemma sig_xor_row : forall m1 m2 j i lo hi, sig m1 m2 -> j < dim w -> i < dim w -> lo <= hi -> hi <= nw w ->
    rp (xor_row m1 j i lo hi) (xor_row m2 j i lo hi) sig.
  Proof.
    intros m1 m2 j i lo hi (S1 & S2 & H) Hj Hi Hl Hh.
    destruct (wp_exists _ _ _ (wp_xor_row w m1 j i lo hi _ S1 Hj Hi Hl Hh (fun m' A B => conj A B))) as (x1 & E1 & A1 & B1).
    destruct (wp_exists _ _ _ (wp_xor_row w m2 j i lo hi _ S2 Hj Hi Hl Hh (fun m' A B => conj A B))) as (x2 & E2 & A2 & B2).
    rewrite E1, E2. simpl. split; auto. split; auto. intros r k q Hq. rewrite B1, B2.
    destruct (_ && _)%bool; auto. rewrite !N.lxor_spec, !H by auto. reflexivity.
  Qed.
  Lemma sig_swap_row : forall m1 m2 i j lo hi, sig m1 m2 -> i < dim w -> j < dim w -> lo <= hi -> hi <= nw w ->
    rp (swap_row m1 i j lo hi) (swap_row m2 i j lo hi) sig.
  Proof.
    intros m1 m2 i j lo hi (S1 & S2 & H) Hi Hj Hl Hh.
    destruct (wp_exists _ _ _ (wp_swap_row w m1 i j lo hi _ S1 Hi Hj Hl Hh (fun m' A B => conj A B))) as (x1 & E1 & A1 & B1).
    destruct (wp_exists _ _ _ (wp_swap_row w m2 i j lo hi _ S2 Hi Hj Hl Hh (fun m' A B => conj A B))) as (x2 & E2 & A2 & B2).
    rewrite E1, E2. simpl. split; auto. split; auto. intros r k q Hq. rewrite B1, B2.
    destruct (_ && _)%bool; apply H; auto.
  Qed.

  Lemma rp_step : forall m1 m2 v b i j hi, sig m1 m2 -> i < dim w -> j < dim w -> b <= hi -> hi <= nw w ->
    rp (t <- bit_test w m1 j b (i - wb w * b) ;;
        if t then m' <- xor_row m1 j i b hi ;; v' <- xor_row v j i 0 (nw w) ;; Ok (m', v') else Ok (m1, v))
       (t <- bit_test w m2 j b (i - wb w * b) ;;
        if t then m' <- xor_row m2 j i b hi ;; v' <- xor_row v j i 0 (nw w) ;; Ok (m', v') else Ok (m2, v))
       sig1.
  Proof.
    intros m1 m2 v b i j hi H Hi Hj Hb Hh. apply rp_eq; [apply sig_bit_test; auto|].
    intros [|] _.
    - eapply rp_bind; [apply sig_xor_row; auto|]. intros a a' Ha.
      apply rp_eq; auto. intros v' _. split; auto.
    - split; auto.
  Qed.
  Lemma rp_elim : forall b i x y, sig1 x y -> i < dim w -> b <= nw w ->
    rp (elim_below2 w b i x) (elim_below2 w b i y) sig1.
  Proof.
    intros b i x y H Hi Hb. unfold elim_below2. apply rp_for_up; auto.
    intros j [m1 v1] [m2 v2] H1 H2 [HS HV]. cbn [fst snd] in *. subst v2.
    apply rp_step; auto; lia.
  Qed.
  Lemma invs_sig : forall m1 m2 v, sig m1 m2 -> invs w m1 v = invs w m2 v.
  Proof.
    intros m1 m2 v H.
    assert (HR : rp (invs w m1 v) (invs w m2 v) eq).
    { unfold invs. apply rp_eq; auto. intros v0 _. eapply rp_bind with (S := sig1).
      - apply rp_for_up; [split; auto|]. intros b x y _ Hb Hxy. apply rp_for_up; auto.
        intros i [a1 u1] [a2 u2] H1 H2 [HS HV]. cbn [fst snd] in *. subst u2.
        assert (Hi : i < dim w) by (rewrite dim_eq; nia).
        apply rp_eq; [apply sig_bit_test; auto|]. intros [|] _.
        + apply rp_elim; auto; [split; auto|lia].
        + apply rp_eq.
          { unfold find_up. apply find_n_ext. intros j _ _. apply sig_bit_test; auto. }
          intros f Ef. eapply rp_bind with (S := sig1).
          * destruct f as [j|]; [|split; auto].
            assert (Hj : j < dim w).
            { unfold find_up in Ef. clear - Ef Hi. remember (dim w - (i + 1)) as n.
              assert (HG : forall k a t, find_n k a t = Ok (Some j) -> j < a + k).
              { induction k as [|k IH]; intros a t E; simpl in E; [discriminate|].
                destruct (t a) as [[]|]; simpl in E; try discriminate.
                - injection E as ->. lia.
                - apply IH in E. lia. }
              apply HG in Ef. lia. }
            eapply rp_bind; [apply sig_swap_row; auto; lia|]. intros c c' Hc.
            apply rp_eq; auto. intros v' _. split; auto.
          * intros [c1 d1] [c2 d2] [E1 E2]. apply rp_elim; auto; [split; auto|lia].
      - intros x y Hxy. eapply rp_bind with (S := sig1).
        + unfold back_subst. apply rp_for_down; auto. intros b x' y' _ Hb Hx'.
          apply rp_for_down; auto. intros i x2 y2 H1 H2 Hx2. apply rp_for_down; auto.
          intros j [a1 u1] [a2 u2] H3 H4 [HS HV]. cbn [fst snd] in *. subst u2.
          assert (Hi : i < dim w) by (rewrite dim_eq; nia).
          apply rp_step; auto; lia.
        + intros [c1 d1] [c2 d2] [E1 E2]. exact E2. }
    destruct (invs w m1 v), (invs w m2 v); simpl in HR; subst; auto; contradiction.
  Qed.
End Sig.
