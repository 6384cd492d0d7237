(** Proofs about github2 and github3: determinants by expansion along the first row, and the
    inverse from the adjugate *)
From Coq Require Import Arith ZArith QArith Qcanon List Bool Lia.
From Verif Require Import Base ModelSM4 WBSM4 SpecQ ModelInv Lap Inv0 Inv4.
Import ListNotations.
Open Scope nat_scope.

(** the leading n by n part of t is A *)
Definition holds (N M n : nat) (t : cells) (A : qmat) : Prop :=
  dims2 N M t /\ forall i j, i < n -> j < n -> at2 None t i j = Some (A i j).

Lemma wp_getc : forall N M t i j v (Q : Qc -> Prop), dims2 N M t -> i < N -> j < M ->
  at2 None t i j = Some v -> Q v -> wp (getc t i j) Q.
Proof.
  intros N M t i j v Q HD Hi Hj E HQ. unfold getc. apply wp_bind.
  apply wp_get2 with (d := None) (n := N) (m := M); auto. rewrite E. exact HQ.
Qed.
Lemma wp_setc : forall N M t i j v (Q : cells -> Prop), dims2 N M t -> i < N -> j < M ->
  (forall t', dims2 N M t' ->
     (forall i' j', at2 None t' i' j' = if (Nat.eqb i' i && Nat.eqb j' j)%bool then Some v else at2 None t i' j') -> Q t') ->
  wp (setc t i j v) Q.
Proof.
  intros N M t i j v Q HD Hi Hj HQ. unfold setc.
  apply wp_set2 with (d := None) (n := N) (m := M); auto.
Qed.
Lemma dims_fresh : forall n m, dims2 n m (fresh n m).
Proof.
  intros n m. split; [apply repeat_length|]. intros i Hi. unfold fresh.
  rewrite (nth_indep _ [] (repeat None m)) by (rewrite repeat_length; auto).
  rewrite nth_repeat. apply repeat_length.
Qed.

(** ** The loops that leave out row p and column q *)
Definition less (p i : nat) : nat := if p <? i then i - 1 else i.
Lemma less_S : forall p i, i <> p -> less p (S i) = S (less p i).
Proof. intros p i H. unfold less. destruct (Nat.ltb_spec p (S i)), (Nat.ltb_spec p i); lia. Qed.
Lemma less_Sp : forall p, less p (S p) = less p p.
Proof. intros p. unfold less. destruct (Nat.ltb_spec p (S p)), (Nat.ltb_spec p p); lia. Qed.
Lemma skip_less : forall p i, i <> p -> skip p (less p i) = i.
Proof.
  intros p i H. unfold skip, less. destruct (Nat.ltb_spec p i).
  - destruct (Nat.ltb_spec (i - 1) p); lia.
  - destruct (Nat.ltb_spec i p); lia.
Qed.
Lemma less_bound : forall p i n, p < n -> i < n -> i <> p -> less p i < n - 1.
Proof. intros p i n Hp Hi H. unfold less. destruct (Nat.ltb_spec p i); lia. Qed.
Lemma less_n : forall p n, p < n -> less p n = n - 1.
Proof. intros p n H. unfold less. destruct (Nat.ltb_spec p n); lia. Qed.

Lemma subloop_wp : forall N n s p q a A b (f : nat -> nat -> cells * nat * nat -> res (cells * nat * nat)) wrap
    (Q : cells * nat * nat -> Prop),
  holds N N n a A -> dims2 N N b -> 2 <= n <= N -> p < n -> q < n -> (s = 0 \/ (s = 1 /\ p = 0)) ->
  (forall k, k < n - 1 -> wrap k = Nat.eqb (S k) (n - 1)) ->
  (forall i j b h k, s <= i -> i < n -> j < n -> f i j (b, h, k) =
     if (negb (Nat.eqb i p) && negb (Nat.eqb j q))%bool then
       x <- getc a i j ;; b <- setc b h k x ;; Ok (if (wrap k : bool) then (b, S h, 0) else (b, h, S k))
     else Ok (b, h, k)) ->
  (forall b' h k, holds N N (n - 1) b' (qminor A p q) -> Q (b', h, k)) ->
  wp (for_up s n (fun i st => for_up 0 n (fun j st => f i j st) st) (b, 0, 0)) Q.
Proof.
  intros N n s p q a A b f wrap Q [Da Ha] Db Hn Hp Hq Hs Hwrap Hf HQ.
  apply wp_for_up with (I := fun i st => let '(b', h, k) := st in dims2 N N b' /\ h = less p i /\ k = 0 /\
     forall r c, r < less p i -> c < n - 1 -> at2 None b' r c = Some (A (skip p r) (skip q c))); [lia| | |].
  - assert (E0 : less p s = 0).
    { unfold less. destruct Hs as [->|[-> ->]]; auto. }
    rewrite E0. repeat split; auto; try apply Db. intros; lia.
  - intros i [[b1 h1] k1] Hi1 Hi2 (D1 & -> & -> & E1).
    destruct (Nat.eq_dec i p) as [->|Hip].
    + apply wp_for_up with (I := fun _ st => st = (b1, less p p, 0)); [lia|auto| |].
      * intros j st _ Hj ->. rewrite Hf by auto. rewrite Nat.eqb_refl. cbn [negb andb]. apply wp_ok. reflexivity.
      * intros st ->. rewrite less_Sp. repeat split; auto; try apply D1.
    + apply wp_for_up with (I := fun j st => let '(b', h, k) := st in dims2 N N b' /\
        (h, k) = (if Nat.eqb (less q j) (n - 1) then (S (less p i), 0) else (less p i, less q j)) /\
        (forall r c, c < n - 1 -> r < less p i \/ (r = less p i /\ c < less q j) ->
           at2 None b' r c = Some (A (skip p r) (skip q c)))); [lia| | |].
      * assert (E0 : less q 0 = 0) by (unfold less; auto).
        rewrite E0. destruct (Nat.eqb_spec 0 (n - 1)); [lia|]. split; auto. split; auto.
        intros r c Hc [H|[_ H]]; [apply E1; auto|lia].
      * intros j [[b2 h2] k2] _ Hj (D2 & HK & E2). rewrite Hf by auto.
        destruct (Nat.eqb_spec i p); [lia|]. cbn [negb andb].
        destruct (Nat.eqb_spec j q) as [->|Hjq]; cbn [negb].
        -- apply wp_ok. rewrite less_Sp. repeat split; auto; apply D2.
        -- pose proof (less_bound q j n Hq Hj Hjq) as HB. pose proof (less_bound p i n Hp Hi2 Hip) as HBp.
           destruct (Nat.eqb_spec (less q j) (n - 1)); [lia|]. injection HK as -> ->.
           apply wp_bind. apply wp_getc with (N := N) (M := N) (v := A i j); auto; try lia.
           apply wp_bind. apply wp_setc with (N := N) (M := N); auto; try lia. intros b3 D3 E3.
           apply wp_ok. rewrite Hwrap by auto. rewrite less_S by auto.
           assert (G : forall r c, c < n - 1 -> r < less p i \/ (r = less p i /\ c < S (less q j)) ->
             at2 None b3 r c = Some (A (skip p r) (skip q c))).
           { intros r c Hc HL. rewrite E3. destruct (Nat.eqb_spec r (less p i)) as [->|]; cbn [andb].
             - destruct (Nat.eqb_spec c (less q j)) as [->|]; [rewrite !skip_less by auto; auto|]. apply E2; auto. lia.
             - apply E2; auto. lia. }
           destruct (Nat.eqb_spec (S (less q j)) (n - 1)); repeat split; auto; apply D3.
      * intros [[b2 h2] k2] (D2 & HK & E2). rewrite (less_n q n Hq) in HK, E2. rewrite Nat.eqb_refl in HK.
        injection HK as -> ->. rewrite less_S by auto. repeat split; auto; try apply D2.
        intros r c Hr Hc. apply E2; auto. lia.
  - intros [[b1 h1] k1] (D1 & _ & _ & E1). apply HQ. rewrite (less_n p n Hp) in E1. split; auto.
Qed.

Lemma powm1_sgn : forall k, powm1 k = sgn k.
Proof. reflexivity. Qed.

(** ** github2 *)
Lemma g2_minor_wp : forall n b a A i (Q : cells -> Prop), holds 100 100 n a A -> dims2 100 100 b ->
  2 <= n <= 100 -> i < n -> (forall b', holds 100 100 (n - 1) b' (qminor A 0 i) -> Q b') ->
  wp (g2_minor b a i n) Q.
Proof.
  intros n b a A i Q Ha Hb Hn Hi HQ. unfold g2_minor. apply wp_bind.
  apply subloop_wp with (N := 100) (p := 0) (q := i) (a := a) (A := A) (wrap := fun k => Nat.eqb (S k) (n - 1))
    (f := fun l j st => let '(b, h, k) := st in
      if Nat.eqb j i then Ok st else
      x <- getc a l j ;; b <- setc b h k x ;;
      Ok (if Nat.eqb (S k) (n - 1) then (b, S h, 0) else (b, h, S k))); auto; try lia.
  - intros l j b0 h k Hl1 Hl2 Hj. destruct (Nat.eqb_spec l 0); [lia|]. cbn [negb andb].
    destruct (Nat.eqb j i); reflexivity.
  - intros b' h k H. apply wp_ok. auto.
Qed.
Lemma qdet_1 : forall A, qdet 1 A = A 0 0.
Proof. intros A. cbn [qdet qsum]. unfold sgn. cbn [Nat.even]. ring. Qed.
Lemma qdet_2 : forall A, qdet 2 A = (A 0%nat 0%nat * A 1%nat 1%nat - A 0%nat 1%nat * A 1%nat 0%nat)%Qc.
Proof.
  intros A. cbn [qdet qsum]. unfold sgn, qminor, skip. cbn [Nat.even Nat.ltb Nat.leb]. ring.
Qed.
Lemma g2_det_wp : forall n a A, 1 <= n <= 100 -> holds 100 100 n a A -> wp (g2_det n a) (fun d => d = qdet n A).
Proof.
  induction n as [|m IH]; intros a A Hn Ha; [lia|]. pose proof Ha as [Da Ea].
  destruct m as [|[|m]].
  - cbn [g2_det]. apply wp_getc with (N := 100) (M := 100) (v := A 0 0); auto; try lia. rewrite qdet_1. auto.
  - cbn [g2_det].
    apply wp_bind. apply wp_getc with (N := 100) (M := 100) (v := A 0 0); auto; try lia.
    apply wp_bind. apply wp_getc with (N := 100) (M := 100) (v := A 1 1); auto; try lia.
    apply wp_bind. apply wp_getc with (N := 100) (M := 100) (v := A 0 1); auto; try lia.
    apply wp_bind. apply wp_getc with (N := 100) (M := 100) (v := A 1 0); auto; try lia.
    apply wp_ok. rewrite qdet_2. reflexivity.
  - set (n := S (S m)) in *.
    change (wp (' (sum, _) <- for_up 0 (S n) (fun i st => let '(sum, b) := st in
               b <- g2_minor b a i (S n) ;; x <- getc a 0 i ;; d <- g2_det n b ;;
               Ok ((sum + x * powm1 i * d)%Qc, b)) (0%Qc, fresh 100 100) ;;
             Ok sum) (fun d => d = qdet (S n) A)).
    apply wp_bind. apply wp_for_up with (I := fun i st => let '(sum, b) := st in dims2 100 100 b /\
       sum = qsum i (fun j => (sgn j * A 0%nat j * qdet n (qminor A 0 j))%Qc)); [lia| | |].
    + split; [apply dims_fresh|reflexivity].
    + intros i [sum b] _ Hi (Db & ->). apply wp_bind. apply g2_minor_wp with (A := A); auto; [lia|].
      intros b' Hb'. replace (S n - 1) with n in Hb' by lia.
      apply wp_bind. apply wp_getc with (N := 100) (M := 100) (v := A 0 i); auto; try lia.
      { apply Ea; lia. }
      apply wp_bind. apply wp_mono with (1 := IH b' (qminor A 0 i) ltac:(lia) Hb'). intros d ->.
      apply wp_ok. split; [apply Hb'|]. cbn [qsum]. rewrite powm1_sgn. ring.
    + intros [sum b] (_ & ->). apply wp_ok. rewrite (qdet_row0 n A). reflexivity.
Qed.
Lemma g2_transpose_wp : forall n c d C det (Q : cells -> Prop), n <= 100 -> holds 100 100 n c C -> dims2 100 100 d ->
  det <> 0%Qc -> (forall d', holds 100 100 n d' (fun i j => (C j i / det)%Qc) -> Q d') -> wp (g2_transpose c d n det) Q.
Proof.
  intros n c d C det Q Hn [Dc Ec] Dd Hdet HQ. unfold g2_transpose. apply wp_bind.
  apply wp_for_up with (I := fun i b => dims2 100 100 b /\ forall r s, r < i -> s < n -> at2 None b r s = Some (C s r)); [lia| | |].
  - split; [apply dims_fresh|intros; lia].
  - intros i b _ Hi (D1 & E1).
    apply wp_for_up with (I := fun j b => dims2 100 100 b /\ (forall r s, r < i -> s < n -> at2 None b r s = Some (C s r)) /\
      forall s, s < j -> at2 None b i s = Some (C s i)); [lia| | |].
    + repeat split; auto; try apply D1. intros; lia.
    + intros j b1 _ Hj (D2 & E2 & F2). apply wp_bind. apply wp_getc with (N := 100) (M := 100) (v := C j i); auto; try lia.
      apply wp_setc with (N := 100) (M := 100); auto; try lia. intros b2 D3 E3. split; auto. split.
      * intros r s Hr Hs. rewrite E3. destruct (Nat.eqb_spec r i); [lia|]. cbn [andb]. auto.
      * intros s Hs. rewrite E3, Nat.eqb_refl. cbn [andb]. destruct (Nat.eqb_spec s j) as [->|]; auto. apply F2; lia.
    + intros b1 (D2 & E2 & F2). split; auto. intros r s Hr Hs. destruct (Nat.eq_dec r i) as [->|]; auto. apply E2; lia.
  - intros b (Db & Eb).
    apply wp_for_up with (I := fun i d => dims2 100 100 d /\ forall r s, r < i -> s < n -> at2 None d r s = Some (C s r / det)%Qc); [lia| | |].
    + split; auto. intros; lia.
    + intros i d1 _ Hi (D1 & E1).
      apply wp_for_up with (I := fun j b => dims2 100 100 b /\ (forall r s, r < i -> s < n -> at2 None b r s = Some (C s r / det)%Qc) /\
        forall s, s < j -> at2 None b i s = Some (C s i / det)%Qc); [lia| | |].
      * repeat split; auto; try apply D1. intros; lia.
      * intros j b1 _ Hj (D2 & E2 & F2). apply wp_bind. apply wp_getc with (N := 100) (M := 100) (v := C j i); auto; try lia.
        apply wp_bind. apply wpu_false. apply wpu_qdiv; auto. intros _. apply wpu_wp.
        apply wp_setc with (N := 100) (M := 100); auto; try lia. intros b2 D3 E3. split; auto. split.
        -- intros r s Hr Hs. rewrite E3. destruct (Nat.eqb_spec r i); [lia|]. cbn [andb]. auto.
        -- intros s Hs. rewrite E3, Nat.eqb_refl. cbn [andb]. destruct (Nat.eqb_spec s j) as [->|]; auto. apply F2; lia.
      * intros b1 (D2 & E2 & F2). split; auto. intros r s Hr Hs. destruct (Nat.eq_dec r i) as [->|]; auto. apply E2; lia.
    + intros d1 (D1 & E1). apply HQ. split; auto.
Qed.
Lemma g2_cofactor_wp : forall n a d A det (Q : cells -> Prop), 2 <= n <= 100 -> holds 100 100 n a A -> dims2 100 100 d ->
  det <> 0%Qc -> (forall d', holds 100 100 n d' (fun i j => (qadj n A i j / det)%Qc) -> Q d') -> wp (g2_cofactor a d n det) Q.
Proof.
  intros n a d A det Q Hn Ha Dd Hdet HQ. unfold g2_cofactor. apply wp_bind.
  pose (C := fun h l => (sgn (h + l) * qdet (n - 1) (qminor A h l))%Qc).
  apply wp_for_up with (I := fun h st => let '(b, c) := st in dims2 100 100 b /\ dims2 100 100 c /\
    forall r s, r < h -> s < n -> at2 None c r s = Some (C r s)); [lia| | |].
  - split; [apply dims_fresh|]. split; [apply dims_fresh|]. intros; lia.
  - intros h [b c] _ Hh (Db & Dc & Ec).
    apply wp_for_up with (I := fun l st => let '(b, c) := st in dims2 100 100 b /\ dims2 100 100 c /\
      (forall r s, r < h -> s < n -> at2 None c r s = Some (C r s)) /\ forall s, s < l -> at2 None c h s = Some (C h s)); [lia| | |].
    + repeat split; auto; try apply Db; try apply Dc. intros; lia.
    + intros l [b1 c1] _ Hl (Db1 & Dc1 & E1 & F1). apply wp_bind.
      apply subloop_wp with (N := 100) (p := h) (q := l) (a := a) (A := A) (wrap := fun k => negb (S (S k) <? n))
        (f := fun i j st => let '(b, m, k) := st in
          if (negb (Nat.eqb i h) && negb (Nat.eqb j l))%bool then
            x <- getc a i j ;; b <- setc b m k x ;;
            Ok (if S (S k) <? n then (b, m, S k) else (b, S m, 0))
          else Ok st); auto; try lia.
      * intros k Hk. destruct (Nat.ltb_spec (S (S k)) n), (Nat.eqb_spec (S k) (n - 1)); auto; lia.
      * intros i j b0 m k Hi1 Hi2 Hj. destruct (S (S k) <? n); reflexivity.
      * intros b2 h2 k2 Hb2. apply wp_bind.
        apply wp_mono with (1 := g2_det_wp (n - 1) b2 (qminor A h l) ltac:(lia) Hb2). intros x ->.
        apply wp_bind. apply wp_setc with (N := 100) (M := 100); auto; try lia. intros c2 D3 E3.
        apply wp_ok. split; [apply Hb2|]. split; auto. split.
        -- intros r s Hr Hs. rewrite E3. destruct (Nat.eqb_spec r h); [lia|]. cbn [andb]. auto.
        -- intros s Hs. rewrite E3, Nat.eqb_refl. cbn [andb].
           destruct (Nat.eqb_spec s l) as [->|]; [reflexivity|]. apply F1; lia.
    + intros [b1 c1] (Db1 & Dc1 & E1 & F1). split; auto. split; auto. intros r s Hr Hs.
      destruct (Nat.eq_dec r h) as [->|]; auto. apply E1; lia.
  - intros [b c] (Db & Dc & Ec). apply g2_transpose_wp with (C := C); auto; [lia|split; auto|].
    intros d' [Dd' Ed']. apply HQ. split; auto. intros i j Hi Hj. rewrite Ed' by auto. unfold C, qadj.
    rewrite (Nat.add_comm j i). reflexivity.
Qed.

(** C110 *)
Lemma g2_run_ok : forall n a A, 2 <= n <= 100 -> holds 100 100 n a A ->
  exists d, g2_run n a = Ok d /\
    (qdet n A = 0%Qc -> d = fresh 100 100) /\
    (qdet n A <> 0%Qc -> exists B, holds 100 100 n d B /\ qinverse n A B).
Proof.
  intros n a A Hn Ha.
  assert (W : wp (g2_run n a) (fun d => (qdet n A = 0%Qc -> d = fresh 100 100) /\
    (qdet n A <> 0%Qc -> exists B, holds 100 100 n d B /\ qinverse n A B))).
  { unfold g2_run. apply wp_bind. apply wp_mono with (1 := g2_det_wp n a A ltac:(lia) Ha). intros d ->.
    unfold g2_inverse. destruct (Qc_eq_dec (qdet n A) 0%Qc) as [Z|Z].
    - apply wp_ok. split; auto. intros; contradiction.
    - destruct (Nat.eqb_spec n 1); [lia|].
      apply g2_cofactor_wp with (A := A); auto; [apply dims_fresh|]. intros d' Hd'. split; [intros; contradiction|].
      intros _. exists (fun i j => (qadj n A i j / qdet n A)%Qc). split; auto. apply qdet_inverse. auto. }
  destruct (wp_exists _ _ _ W) as (d & E & H). exists d. auto.
Qed.
(** of a 1 by 1 matrix the "inverse" is always 1 *)
Lemma g2_run_one : forall a A, holds 100 100 1 a A -> A 0 0 <> 0%Qc ->
  exists d, g2_run 1 a = Ok d /\ at2 None d 0 0 = Some 1%Qc.
Proof.
  intros a A Ha Hz.
  assert (W : wp (g2_run 1 a) (fun d => at2 None d 0 0 = Some 1%Qc)).
  { unfold g2_run. apply wp_bind. apply wp_mono with (1 := g2_det_wp 1 a A ltac:(lia) Ha). intros d ->.
    rewrite qdet_1. unfold g2_inverse. destruct (Qc_eq_dec (A 0 0) 0%Qc); [contradiction|].
    cbn [Nat.eqb]. apply wp_setc with (N := 100) (M := 100); [apply dims_fresh|lia|lia|]. intros t D E.
    rewrite E. reflexivity. }
  apply (wp_exists _ _ _ W).
Qed.

(** ** github3 *)
Definition mholds (n : nat) (X : mmatrix) (A : qmat) : Prop :=
  mn X = n /\ mm X = n /\ holds n n n (mM X) A.

Lemma g3_cofac_wp : forall N n a D A p q (Q : cells -> Prop), holds N N n a A -> dims2 N N D -> 2 <= n <= N -> p < n -> q < n ->
  (forall D', holds N N (n - 1) D' (qminor A p q) -> Q D') -> wp (g3_cofac a D p q n) Q.
Proof.
  intros N n a D A p q Q Ha HD Hn Hp Hq HQ. unfold g3_cofac. apply wp_bind.
  apply subloop_wp with (N := N) (p := p) (q := q) (a := a) (A := A) (wrap := fun k => Nat.eqb (S k) (n - 1))
    (f := fun i j st => let '(D, k, w) := st in
      if (negb (Nat.eqb i p) && negb (Nat.eqb j q))%bool then
        x <- getc a i j ;; D <- setc D k w x ;;
        Ok (if Nat.eqb (S w) (n - 1) then (D, S k, 0) else (D, k, S w))
      else Ok st); auto.
  intros b' h k H. apply wp_ok. auto.
Qed.
Lemma g3_determ_wp : forall n N a A, 1 <= n <= N -> holds N N n a A ->
  wp (g3_determ (mkM N N a) n) (fun d => d = qdet n A).
Proof.
  induction n as [|m IH]; intros N a A Hn Ha; [lia|]. pose proof Ha as [Da Ea].
  destruct m as [|[|m]].
  - cbn [g3_determ mn mm mM]. rewrite Nat.eqb_refl. cbn [negb].
    apply wp_getc with (N := N) (M := N) (v := A 0 0); auto; try lia. rewrite qdet_1. auto.
  - cbn [g3_determ mn mm mM]. rewrite Nat.eqb_refl. cbn [negb].
    apply wp_bind. apply wp_getc with (N := N) (M := N) (v := A 0 0); auto; try lia.
    apply wp_bind. apply wp_getc with (N := N) (M := N) (v := A 1 1); auto; try lia.
    apply wp_bind. apply wp_getc with (N := N) (M := N) (v := A 0 1); auto; try lia.
    apply wp_bind. apply wp_getc with (N := N) (M := N) (v := A 1 0); auto; try lia.
    apply wp_ok. rewrite qdet_2. reflexivity.
  - set (n := S (S m)) in *.
    change (wp (if negb (Nat.eqb N N) then UB else
             ' (determ, _, _) <- for_up 0 (S n) (fun i st => let '(determ, D, signo) := st in
               D <- g3_cofac a D 0 i (S n) ;; x <- getc a 0 i ;;
               d <- g3_determ (mkM N N D) n ;;
               Ok ((determ + signo * x * d)%Qc, D, (- signo)%Qc))
               (0%Qc, fresh N N, 1%Qc) ;;
             Ok determ) (fun d => d = qdet (S n) A)).
    rewrite Nat.eqb_refl. cbn [negb].
    apply wp_bind. apply wp_for_up with (I := fun i st => let '(sum, D, signo) := st in dims2 N N D /\ signo = sgn i /\
       sum = qsum i (fun j => (sgn j * A 0%nat j * qdet n (qminor A 0 j))%Qc)); [lia| | |].
    + split; [apply dims_fresh|]. split; reflexivity.
    + intros i [[sum D] signo] _ Hi (DD & -> & ->). apply wp_bind. apply g3_cofac_wp with (N := N) (A := A); auto; try lia.
      intros D' HD'. replace (S n - 1) with n in HD' by lia.
      apply wp_bind. apply wp_getc with (N := N) (M := N) (v := A 0 i); auto; try lia.
      { apply Ea; lia. }
      apply wp_bind. apply wp_mono with (1 := IH N D' (qminor A 0 i) ltac:(lia) HD'). intros d ->.
      apply wp_ok. split; [apply HD'|]. split; [rewrite sgn_S; reflexivity|]. cbn [qsum]. reflexivity.
    + intros [[sum D] signo] (_ & _ & ->). apply wp_ok. rewrite (qdet_row0 n A). reflexivity.
Qed.
Lemma mod2_sgn : forall k, (if Nat.eqb (k mod 2) 0 then 1%Qc else (-(1))%Qc) = sgn k.
Proof.
  intros k. unfold sgn. destruct (Nat.even k) eqn:E.
  - apply Nat.even_spec in E. destruct E as [x ->]. rewrite Nat.mul_comm, Nat.mod_mul by lia. reflexivity.
  - assert (O : Nat.odd k = true) by (unfold Nat.odd; rewrite E; auto). apply Nat.odd_spec in O. destruct O as [x ->].
    replace (2 * x + 1) with (1 + x * 2) by lia. rewrite Nat.mod_add by lia. reflexivity.
Qed.
Lemma g3_adj_wp : forall n a Adj A (Q : cells * nat -> Prop), 2 <= n -> holds n n n a A -> dims2 n n Adj ->
  (forall Adj', holds n n n Adj' (qadj n A) -> Q (Adj', n * n - 1)) -> wp (g3_adj (mkM n n a) Adj n) Q.
Proof.
  intros n a Adj A Q Hn Ha DAdj HQ. unfold g3_adj. cbn [mn mm mM]. destruct (Nat.eqb_spec n 1); [lia|]. cbn [bind].
  apply wp_bind.
  apply wp_for_up with (I := fun i st => let '(T, live) := st in dims2 n n T /\ live = i * n /\
    forall r s, r < i -> s < n -> at2 None T s r = Some (qadj n A s r)); [lia| | |].
  - repeat split; auto; try apply DAdj. intros; lia.
  - intros i [T live] _ Hi (DT & -> & ET).
    apply wp_for_up with (I := fun j st => let '(T, live) := st in dims2 n n T /\ live = i * n + j /\
      (forall r s, r < i -> s < n -> at2 None T s r = Some (qadj n A s r)) /\
      forall s, s < j -> at2 None T s i = Some (qadj n A s i)); [lia| | |].
    + repeat split; auto; try apply DT. intros; lia.
    + intros j [T1 live1] _ Hj (DT1 & -> & E1 & F1).
      apply wp_bind. apply g3_cofac_wp with (N := n) (A := A); auto; [apply dims_fresh|]. intros E HE.
      apply wp_bind. apply wp_mono with (1 := g3_determ_wp (n - 1) n E (qminor A i j) ltac:(lia) HE). intros d ->.
      apply wp_bind. apply wp_setc with (N := n) (M := n); auto. intros T2 D2 E2. apply wp_ok.
      split; auto. split; [lia|]. split.
      * intros r s Hr Hs. rewrite E2. destruct (Nat.eqb_spec r i); [lia|]. rewrite andb_false_r. auto.
      * intros s Hs. rewrite E2, Nat.eqb_refl, andb_true_r. destruct (Nat.eqb_spec s j) as [->|]; [|apply F1; lia].
        unfold qadj. rewrite mod2_sgn, (Nat.add_comm j i). reflexivity.
    + intros [T1 live1] (DT1 & -> & E1 & F1). split; auto. split; [lia|]. intros r s Hr Hs.
      destruct (Nat.eq_dec r i) as [->|]; auto. apply E1; lia.
  - intros [T live] (DT & -> & ET). destruct (Nat.eqb_spec n 0); [lia|]. apply wp_ok. apply HQ. split; auto.
Qed.

(** C111 *)
Lemma g3_inver_ok : forall n X A, 2 <= n -> mholds n X A ->
  exists o leaked, g3_inver X = Ok (o, leaked) /\
    (qdet n A = 0%Qc -> o = None /\ leaked = 0) /\
    (qdet n A <> 0%Qc -> leaked = n * n - 1 /\ exists t B, o = Some t /\ holds n n n t B /\ qinverse n A B).
Proof.
  intros n [xn xm a] A Hn (E1 & E2 & Ha). cbn [mn mm mM] in *. subst xn xm.
  assert (W : wp (g3_inver (mkM n n a)) (fun st => let '(o, leaked) := st in
    (qdet n A = 0%Qc -> o = None /\ leaked = 0) /\
    (qdet n A <> 0%Qc -> leaked = n * n - 1 /\ exists t B, o = Some t /\ holds n n n t B /\ qinverse n A B))).
  { unfold g3_inver. cbn [mn mm mM]. rewrite Nat.eqb_refl.
    apply wp_bind. apply wp_mono with (1 := g3_determ_wp n n a A ltac:(lia) Ha). intros d ->.
    destruct (Qc_eq_dec (qdet n A) 0%Qc) as [Z|Z].
    - apply wp_ok. split; [auto|intros; contradiction].
    - apply wp_bind. apply g3_adj_wp with (A := A); auto; [apply dims_fresh|]. intros Adj [DA EA].
      apply wp_bind.
      apply wp_for_up with (I := fun i t => dims2 n n t /\ forall r s, r < i -> s < n -> at2 None t r s = Some (qadj n A r s / qdet n A)%Qc); [lia| | |].
      + split; [apply dims_fresh|intros; lia].
      + intros i t _ Hi (D1 & F1).
        apply wp_for_up with (I := fun j t => dims2 n n t /\ (forall r s, r < i -> s < n -> at2 None t r s = Some (qadj n A r s / qdet n A)%Qc) /\
          forall s, s < j -> at2 None t i s = Some (qadj n A i s / qdet n A)%Qc); [lia| | |].
        * repeat split; auto; try apply D1. intros; lia.
        * intros j t1 _ Hj (D2 & F2 & G2). apply wp_bind. apply wp_getc with (N := n) (M := n) (v := qadj n A i j); auto.
          apply wp_bind. apply wpu_false. apply wpu_qdiv; auto. intros _. apply wpu_wp.
          apply wp_setc with (N := n) (M := n); auto. intros t2 D3 E3. split; auto. split.
          -- intros r s Hr Hs. rewrite E3. destruct (Nat.eqb_spec r i); [lia|]. cbn [andb]. auto.
          -- intros s Hs. rewrite E3, Nat.eqb_refl. cbn [andb]. destruct (Nat.eqb_spec s j) as [->|]; auto. apply G2; lia.
        * intros t1 (D2 & F2 & G2). split; auto. intros r s Hr Hs. destruct (Nat.eq_dec r i) as [->|]; auto. apply F2; lia.
      + intros t (Dt & Et). apply wp_ok. split; [intros; contradiction|]. intros _. split; auto.
        exists t, (fun i j => (qadj n A i j / qdet n A)%Qc). split; auto. split; [split; auto|]. apply qdet_inverse. auto. }
  destruct (wp_exists _ _ _ W) as ([o leaked] & E & H). exists o, leaked. auto.
Qed.

(** the product *)
Lemma g3_mulmat_ok : forall X Y A B p q r, mn X = p -> mm X = q -> mn Y = q -> mm Y = r ->
  dims2 p q (mM X) -> dims2 q r (mM Y) ->
  (forall i k, i < p -> k < q -> at2 None (mM X) i k = Some (A i k)) ->
  (forall k j, k < q -> j < r -> at2 None (mM Y) k j = Some (B k j)) ->
  exists t, g3_mulmat X Y = Ok (Some (mkM p r t)) /\ dims2 p r t /\
    forall i j, i < p -> j < r -> at2 None t i j = Some (qmul q A B i j).
Proof.
  intros X Y A B p q r E1 E2 E3 E4 DX DY EX EY.
  assert (W : wp (g3_mulmat X Y) (fun o => exists t, o = Some (mkM p r t) /\ dims2 p r t /\
    forall i j, i < p -> j < r -> at2 None t i j = Some (qmul q A B i j))).
  { unfold g3_mulmat, memmatr. rewrite E1, E2, E3, E4, Nat.eqb_refl. cbn [negb mn mm mM]. apply wp_bind.
    apply wp_for_up with (I := fun i t => dims2 p r t /\ forall a c, a < i -> c < r -> at2 None t a c = Some (qmul q A B a c)); [lia| | |].
    - split; [apply dims_fresh|intros; lia].
    - intros i t _ Hi (D1 & F1).
      apply wp_for_up with (I := fun j t => dims2 p r t /\ (forall a c, a < i -> c < r -> at2 None t a c = Some (qmul q A B a c)) /\
        forall c, c < j -> at2 None t i c = Some (qmul q A B i c)); [lia| | |].
      + repeat split; auto; try apply D1. intros; lia.
      + intros j t1 _ Hj (D2 & F2 & G2).
        apply wp_bind. apply wp_setc with (N := p) (M := r); auto. intros t2 D3 E5.
        apply wp_for_up with (I := fun k t => dims2 p r t /\ (forall a c, a < i -> c < r -> at2 None t a c = Some (qmul q A B a c)) /\
          (forall c, c < j -> at2 None t i c = Some (qmul q A B i c)) /\
          at2 None t i j = Some (qsum k (fun k => (A i k * B k j)%Qc))); [lia| | |].
        * split; auto. split; [|split].
          -- intros a c Ha Hc. rewrite E5. destruct (Nat.eqb_spec a i); [lia|]. cbn [andb]. auto.
          -- intros c Hc. rewrite E5, Nat.eqb_refl. cbn [andb]. destruct (Nat.eqb_spec c j); [lia|]. apply G2; lia.
          -- rewrite E5, !Nat.eqb_refl. reflexivity.
        * intros k t3 _ Hk (D4 & F4 & G4 & H4).
          apply wp_bind. apply wp_getc with (N := p) (M := r) (v := qsum k (fun k => (A i k * B k j)%Qc)); auto.
          apply wp_bind. apply wp_getc with (N := p) (M := q) (v := A i k); auto.
          apply wp_bind. apply wp_getc with (N := q) (M := r) (v := B k j); auto.
          apply wp_setc with (N := p) (M := r); auto. intros t4 D5 E6. split; auto. split; [|split].
          -- intros a c Ha Hc. rewrite E6. destruct (Nat.eqb_spec a i); [lia|]. cbn [andb]. auto.
          -- intros c Hc. rewrite E6, Nat.eqb_refl. cbn [andb]. destruct (Nat.eqb_spec c j); [lia|]. apply G4; lia.
          -- rewrite E6, !Nat.eqb_refl. reflexivity.
        * intros t3 (D4 & F4 & G4 & H4). split; auto. split; auto. intros c Hc.
          destruct (Nat.eq_dec c j) as [->|]; [exact H4|apply G4; lia].
      + intros t1 (D2 & F2 & G2). split; auto. intros a c Ha Hc. destruct (Nat.eq_dec a i) as [->|]; auto. apply F2; lia.
    - intros t (Dt & Et). apply wp_ok. exists t. auto. }
  destruct (wp_exists _ _ _ W) as (o & E & t & -> & H). exists t. auto.
Qed.
