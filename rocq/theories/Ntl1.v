(** Matrices, vectors and random matrices over NTL: lemmas for ModelNtl.v *)
From Coq Require Import Arith NArith ZArith List Bool Lia ZifyNat Setoid Morphisms.
From Verif Require Cons.
From Verif Require Import Base Spec LinAlg SpecGf2 Gf2a Gf2b ModelNtl SpecNtl.
From Verif Require ModelSM4 M4ri1.
Import ListNotations.
Local Open Scope nat_scope.
#[local] Ltac Zify.zify_post_hook ::= Z.to_euclidean_division_equations.

Lemma wp_eq : forall A (c : res A) x, wp c (fun r => r = x) -> c = Ok x.
Proof. intros. apply Cons.wp_eq. assumption. Qed.

(** ** Entries *)

Lemma gok_row : forall R C A i, gok R C A -> i < R -> length (nth i (gdata A) []) = C.
Proof. intros R C A i (_ & _ & L & H) Hi. apply H, nth_In. lia. Qed.
Lemma gok_intro : forall R C A, grows A = R -> gcols A = C -> length (gdata A) = R ->
  (forall i, i < R -> length (nth i (gdata A) []) = C) -> gok R C A.
Proof.
  intros R C A H1 H2 H3 H4. repeat split; auto. intros r Hr. apply (In_nth _ _ []) in Hr. destruct Hr as (i & Hi & <-). apply H4. lia.
Qed.
Lemma gdims_ok : forall R C, gok R C (gdims R C).
Proof.
  intros. repeat split; cbn [gdata gdims]; [apply repeat_length|]. intros r Hr. apply repeat_spec in Hr. subst r. apply repeat_length.
Qed.
Definition setrow (A : gmat) (i : nat) (l : list bool) : gmat := mkgmat (grows A) (gcols A) (upd (gdata A) i l).
Lemma setrow_ok : forall R C A i l, gok R C A -> i < R -> length l = C -> gok R C (setrow A i l).
Proof.
  intros R C A i l H Hi Hl. pose proof H as (H1 & H2 & H3 & H4). apply gok_intro; cbn [setrow grows gcols gdata]; auto.
  - rewrite length_upd. exact H3.
  - intros k Hk. rewrite nth_upd by lia. destruct (Nat.eqb_spec k i); [exact Hl|]. apply (gok_row R C); assumption.
Qed.

Lemma wp_gget : forall R C A i j (Q : bool -> Prop), gok R C A -> i < R -> j < C -> Q (gat A i j) -> wp (gget A i j) Q.
Proof.
  intros R C A i j Q HA Hi Hj HQ. unfold gget. apply wp_bind, wp_aget with (d := []); [rewrite (proj1 (proj2 (proj2 HA))); exact Hi|].
  apply wp_aget with (d := false); [rewrite (gok_row R C); auto|exact HQ].
Qed.
Lemma gput_eq : forall R C A i j b, gok R C A -> i < R -> j < C ->
  gput A i j b = Ok (setrow A i (upd (nth i (gdata A) []) j b)).
Proof.
  intros R C A i j b HA Hi Hj. apply wp_eq. unfold gput. apply wp_bind, wp_aget with (d := []); [rewrite (proj1 (proj2 (proj2 HA))); exact Hi|].
  apply wp_bind, wp_aset; [rewrite (gok_row R C); auto|]. apply wp_bind, wp_aset; [rewrite (proj1 (proj2 (proj2 HA))); exact Hi|].
  apply wp_ok. reflexivity.
Qed.
Lemma wp_gput : forall R C A i j b (Q : gmat -> Prop), gok R C A -> i < R -> j < C ->
  (forall A', gok R C A' -> (forall a c, gat A' a c = if Nat.eqb a i && Nat.eqb c j then b else gat A a c) -> Q A') ->
  wp (gput A i j b) Q.
Proof.
  intros R C A i j b Q HA Hi Hj HQ. rewrite (gput_eq R C) by assumption. apply wp_ok, HQ.
  - apply setrow_ok; auto. rewrite length_upd. apply (gok_row R C); assumption.
  - intros a c. unfold gat. cbn [setrow gdata]. rewrite nth_upd by (rewrite (proj1 (proj2 (proj2 HA))); exact Hi).
    destruct (Nat.eqb_spec a i) as [->|]; cbn [andb]; [|reflexivity].
    rewrite nth_upd by (rewrite (gok_row R C); assumption). reflexivity.
Qed.
Lemma wp_vget : forall n v i (Q : bool -> Prop), length v = n -> i < n -> Q (gv v i) -> wp (vget v i) Q.
Proof. intros n v i Q H Hi HQ. unfold vget. apply wp_aget with (d := false); [lia|exact HQ]. Qed.
Lemma wp_vput : forall n v i b (Q : gvec -> Prop), length v = n -> i < n ->
  (forall v', length v' = n -> (forall a, gv v' a = if Nat.eqb a i then b else gv v a) -> Q v') -> wp (vput v i b) Q.
Proof.
  intros n v i b Q H Hi HQ. unfold vput. apply wp_aset; [lia|]. apply HQ; [rewrite length_upd; exact H|].
  intros a. unfold gv. rewrite nth_upd by lia. reflexivity.
Qed.
Lemma gv_ext : forall n v w, length v = n -> length w = n -> veq n (gv v) (gv w) -> v = w.
Proof. intros n v w H1 H2 H. apply (list_ext _ false); [lia|]. intros i Hi. apply H. lia. Qed.
Lemma gm_ext : forall R C A B, gok R C A -> gok R C B -> (forall i j, i < R -> j < C -> gat A i j = gat B i j) -> A = B.
Proof.
  intros R C [r c d] [r' c' d'] HA HB H. pose proof HA as (A1 & A2 & A3 & A4). pose proof HB as (B1 & B2 & B3 & B4).
  cbn [grows gcols gdata] in *. subst. f_equal. apply (list_ext _ []); [lia|]. intros i Hi.
  apply (list_ext _ false).
  - rewrite A4, B4; [reflexivity|apply nth_In; lia|apply nth_In; lia].
  - intros j Hj. apply (H i j); [exact Hi|]. rewrite <- (A4 (nth i d [])); [exact Hj|apply nth_In; exact Hi].
Qed.

(** ** Sums and products *)

Lemma fold_xorb : forall l a, fold_left xorb l a = xorb a (fold_left xorb l false).
Proof.
  induction l as [|x l IH]; intros a; cbn [fold_left]; [symmetry; apply xorb_false_r|].
  rewrite IH, (IH (xorb false x)), xorb_false_l, xorb_assoc. reflexivity.
Qed.
Lemma xsum_shift : forall n f, xsum (S n) f = xorb (f 0) (xsum n (fun k => f (S k))).
Proof.
  intros n f. change (S n) with (1 + n). rewrite xsum_add. f_equal. cbn [xsum]. destruct (f 0); reflexivity.
Qed.
Lemma dot_xsum : forall v w, length v = length w -> dot v w = xsum (length v) (fun k => gv v k && gv w k).
Proof.
  unfold dot, gv. induction v as [|a v IH]; intros [|b w] H; try discriminate; [reflexivity|].
  cbn [combine map fold_left length fst snd]. rewrite xsum_shift. cbn [nth]. rewrite xorb_false_l, fold_xorb.
  rewrite IH by (cbn [length] in H; lia). reflexivity.
Qed.
Lemma wp_gmulv : forall R C A v (Q : gvec -> Prop), gok R C A -> length v = C ->
  (forall w, length w = R -> veq R (gv w) (fapp C (gat A) (gv v)) -> Q w) -> wp (gmulv A v) Q.
Proof.
  intros R C A v Q HA Hv HQ. pose proof HA as (H1 & H2 & H3 & H4). unfold gmulv. rewrite H2, Hv, Nat.eqb_refl. apply wp_ok, HQ.
  - rewrite map_length. exact H3.
  - intros i Hi. unfold gv at 1. rewrite (nth_indep _ false (dot [] v)) by (rewrite map_length; lia).
    rewrite (map_nth (fun r => dot r v)). rewrite dot_xsum by (rewrite (gok_row R C A i HA Hi); auto).
    rewrite (gok_row R C A i HA Hi). reflexivity.
Qed.
Lemma wp_gmul : forall R n C A B (Q : gmat -> Prop), gok R n A -> gok n C B ->
  (forall P, gok R C P -> (forall i j, i < R -> j < C -> gat P i j = xsum n (fun k => gat A i k && gat B k j)) -> Q P) ->
  wp (gmul A B) Q.
Proof.
  intros R n C A B Q HA HB HQ. pose proof HA as (H1 & H2 & H3 & H4). pose proof HB as (K1 & K2 & K3 & K4).
  unfold gmul. rewrite H2, K1, Nat.eqb_refl. apply wp_ok, HQ.
  - repeat split; cbn [grows gcols gdata]; auto; [rewrite map_length; exact H3|].
    intros r Hr. apply in_map_iff in Hr. destruct Hr as (x & <- & _). rewrite map_length, seq_length. exact K2.
  - intros i j Hi Hj. unfold gat at 1. cbn [gdata].
    set (F := fun r => map (fun j => dot r (gcolumn B j)) (seq 0 (gcols B))).
    rewrite (nth_indep _ [] (F [])) by (rewrite map_length; lia). rewrite (map_nth F). unfold F.
    rewrite (nth_indep _ false (dot (nth i (gdata A) []) (gcolumn B 0))) by (rewrite map_length, seq_length; lia).
    rewrite (map_nth (fun j => dot (nth i (gdata A) []) (gcolumn B j))). rewrite seq_nth by lia. cbn [Nat.add].
    assert (LC : length (gcolumn B j) = n) by (unfold gcolumn; rewrite map_length; exact K3).
    rewrite dot_xsum by (rewrite LC; apply (gok_row R n A i HA Hi)). rewrite (gok_row R n A i HA Hi).
    apply xsum_ext. intros k Hk. f_equal. unfold gv, gcolumn, gat.
    set (G := fun r : list bool => nth j r false).
    rewrite (nth_indep _ false (G [])) by (rewrite map_length; lia). apply (map_nth G).
Qed.
Lemma wp_gaddv : forall n v w (Q : gvec -> Prop), length v = n -> length w = n ->
  (forall u, length u = n -> veq n (gv u) (vadd (gv v) (gv w)) -> Q u) -> wp (gaddv v w) Q.
Proof.
  intros n v w Q Hv Hw HQ. unfold gaddv. rewrite Hv, Hw, Nat.eqb_refl. apply wp_ok, HQ.
  - rewrite map_length, combine_length. lia.
  - intros i Hi. unfold gv at 1. set (F := fun p : bool * bool => xorb (fst p) (snd p)).
    rewrite (nth_indep _ false (F (false, false))) by (rewrite map_length, combine_length; lia). rewrite (map_nth F).
    rewrite combine_nth by lia. reflexivity.
Qed.
Lemma gsingular_eq : forall nt n A, gok n n A -> gsingular nt A = Ok (negb (tdet nt A)).
Proof. intros nt n A (H1 & H2 & _). unfold gsingular. rewrite H1, H2, Nat.eqb_refl. reflexivity. Qed.
Lemma wp_ginv : forall nt n A (Q : gmat -> Prop), ntl_ok nt -> gok n n A -> invertible n (gat A) ->
  (forall B, gok n n B -> inverse_of n (gat A) (gat B) -> Q B) -> wp (ginv nt A) Q.
Proof.
  intros nt n A Q HN HA HI HQ. unfold ginv. rewrite (gsingular_eq nt n) by exact HA. cbn [bind].
  destruct (HN n A HA) as [H1 H2]. rewrite (proj2 H1 HI). cbn [negb]. apply wp_ok. apply HQ; apply H2; exact HI.
Qed.

(** ** Random matrices *)

Lemma upd_upd : forall A (l : list A) i x y, upd (upd l i x) i y = upd l i y.
Proof. induction l as [|a l IH]; intros [|i] x y; cbn [upd]; auto. f_equal. apply IH. Qed.
Lemma upd_nth : forall A (l : list A) i d, i < length l -> upd l i (nth i l d) = l.
Proof. induction l as [|a l IH]; intros [|i] d H; cbn [upd nth length] in *; auto. f_equal. apply IH. lia. Qed.
Lemma setrow_setrow : forall A i l l', setrow (setrow A i l) i l' = setrow A i l'.
Proof. intros. unfold setrow. cbn [grows gcols gdata]. rewrite upd_upd. reflexivity. Qed.

Lemma block_length : forall rnd m s, length (block rnd m s) = m.
Proof. intros. unfold block. rewrite map_length, seq_length. reflexivity. Qed.
Lemma block_nth : forall rnd m s j, j < m -> nth j (block rnd m s) false = rnd (s + j).
Proof.
  intros rnd m s j Hj. unfold block. rewrite (nth_indep _ false (rnd 0)) by (rewrite map_length, seq_length; exact Hj).
  rewrite map_nth, seq_nth by exact Hj. reflexivity.
Qed.
Lemma block_S : forall rnd m s, block rnd (S m) s = block rnd m s ++ [rnd (s + m)].
Proof. intros. unfold block. rewrite seq_S, map_app. reflexivity. Qed.
Lemma ones_app : forall a b, ones (a ++ b) = ones a + ones b.
Proof. intros. apply count_occ_app. Qed.

Lemma draw_pass_eq : forall nt R m A i s, gok R m A -> i < R ->
  draw_pass nt i m A s = Ok (setrow A i (block (trand nt) m s), ones (block (trand nt) m s), s + m).
Proof.
  intros nt R m A i s HA Hi. apply wp_eq. unfold draw_pass.
  apply wp_for_up with (I := fun j (st : gmat * nat * nat) => exists r, length r = m /\ fst (fst st) = setrow A i r /\
    (forall k, k < j -> nth k r false = trand nt (s + k)) /\ snd (fst st) = ones (block (trand nt) j s) /\ snd st = s + j).
  - lia.
  - exists (nth i (gdata A) []). split; [apply (gok_row R m); assumption|]. cbn [fst snd]. split; [|split; [intros; lia|split; [reflexivity|lia]]].
    unfold setrow. destruct A as [ar ac ad]. cbn [grows gcols gdata] in *. rewrite upd_nth; [reflexivity|].
    destruct HA as (_ & _ & L & _). cbn [gdata] in L. lia.
  - intros j [[A' hw] t] _ Hj (r & Lr & E1 & E2 & E3 & E4). cbn [fst snd] in *. subst A' hw t.
    assert (HA' : gok R m (setrow A i r)) by (apply setrow_ok; assumption).
    assert (ER : nth i (gdata (setrow A i r)) [] = r).
    { cbn [setrow gdata]. rewrite nth_upd by (rewrite (proj1 (proj2 (proj2 HA))); exact Hi). rewrite Nat.eqb_refl. reflexivity. }
    rewrite (gput_eq R m) by assumption. rewrite ER, setrow_setrow. cbn [bind].
    assert (HA2 : gok R m (setrow A i (upd r j (trand nt (s + j))))) by (apply setrow_ok; auto; rewrite length_upd; exact Lr).
    apply wp_bind, (wp_gget R m); auto.
    assert (EG : gat (setrow A i (upd r j (trand nt (s + j)))) i j = trand nt (s + j)).
    { unfold gat. cbn [setrow gdata]. rewrite nth_upd by (rewrite (proj1 (proj2 (proj2 HA))); exact Hi).
      rewrite Nat.eqb_refl, nth_upd by lia. rewrite Nat.eqb_refl. reflexivity. }
    rewrite EG. apply wp_ok. cbn [fst snd]. exists (upd r j (trand nt (s + j))). split; [rewrite length_upd; exact Lr|]. split; [reflexivity|].
    split; [|split; [|lia]].
    + intros k Hk. rewrite nth_upd by lia. destruct (Nat.eqb_spec k j) as [->|]; [reflexivity|]. apply E2. lia.
    + rewrite block_S, ones_app. destruct (trand nt (s + j)); cbn [ones count_occ]; [destruct (bool_dec true true); [reflexivity|congruence]|].
      destruct (bool_dec false true); [congruence|]. rewrite Nat.add_0_r. reflexivity.
  - intros [[A' hw] t] (r & Lr & E1 & E2 & E3 & E4). cbn [fst snd] in *. subst A' hw t. f_equal. f_equal. f_equal.
    apply (list_ext _ false); [rewrite block_length; exact Lr|]. intros k Hk. rewrite E2, block_nth by lia. reflexivity.
Qed.

Fixpoint find_row (f : nat) (rnd : nat -> bool) (m s : nat) : option (list bool * nat) :=
  if Nat.eqb (ones (block rnd m s)) 1
  then match f with O => None | S f' => find_row f' rnd m (s + m) end
  else Some (block rnd m s, s + m).
Fixpoint find_rows (f : nat) (rnd : nat -> bool) (m n s : nat) : option (list (list bool) * nat) :=
  match n with
  | O => Some ([], s)
  | S n' => match find_row f rnd m s with
            | None => None
            | Some (r, s1) => match find_rows f rnd m n' s1 with None => None | Some (l, s2) => Some (r :: l, s2) end
            end
  end.
Lemma draw_row_eq : forall nt f R m A i s, gok R m A -> i < R ->
  draw_row f nt i m A s = Ok (match find_row f (trand nt) m s with None => None | Some (r, s') => Some (setrow A i r, s') end).
Proof.
  intros nt. induction f as [|f IH]; intros R m A i s HA Hi; cbn [draw_row find_row]; rewrite (draw_pass_eq nt R m) by assumption;
    cbn [bind]; destruct (Nat.eqb_spec (ones (block (trand nt) m s)) 1); try reflexivity.
  rewrite (IH R) by (auto; apply setrow_ok; auto; apply block_length). destruct (find_row f (trand nt) m (s + m)) as [[r s']|]; [|reflexivity].
  rewrite setrow_setrow. reflexivity.
Qed.
Lemma find_row_length : forall f rnd m s r s', find_row f rnd m s = Some (r, s') -> length r = m.
Proof.
  induction f as [|f IH]; intros rnd m s r s' H; cbn [find_row] in H; destruct (Nat.eqb _ 1); try discriminate.
  - injection H as <- <-. apply block_length.
  - apply (IH _ _ _ _ _ H).
  - injection H as <- <-. apply block_length.
Qed.
Lemma find_rows_length : forall f rnd m n s l s', find_rows f rnd m n s = Some (l, s') ->
  length l = n /\ forall r, In r l -> length r = m.
Proof.
  induction n as [|n IH]; intros s l s' H; cbn [find_rows] in H.
  - injection H as <- <-. split; [reflexivity|intros r []].
  - destruct (find_row f rnd m s) as [[r s1]|] eqn:E; [|discriminate]. destruct (find_rows f rnd m n s1) as [[l1 s2]|] eqn:E2; [|discriminate].
    injection H as <- <-. destruct (IH _ _ _ E2) as [H1 H2]. split; [cbn [length]; lia|]. intros x [<-|Hx]; [|auto].
    apply (find_row_length _ _ _ _ _ _ E).
Qed.
Lemma skipn_upd_app : forall A (l1 d : list A) i x, length l1 = i -> i < length d ->
  upd (l1 ++ skipn i d) i x = (l1 ++ [x]) ++ skipn (S i) d.
Proof.
  intros A l1 d i x <- H. revert d H. induction l1 as [|a l1 IH]; intros d H; cbn [length app] in *.
  - destruct d as [|y d]; [cbn [length] in H; lia|]. reflexivity.
  - destruct d as [|y d]; [cbn [length] in H; lia|]. cbn [skipn upd app]. f_equal. cbn [length] in H. rewrite IH by lia. reflexivity.
Qed.
Lemma draw_rows_eq : forall nt f n m A s, gok n m A ->
  draw_rows f nt n m A s = Ok (match find_rows f (trand nt) m n s with None => None | Some (l, s') => Some (mkgmat n m l, s') end).
Proof.
  intros nt f n m A s HA. apply wp_eq. unfold draw_rows.
  apply wp_for_up with (I := fun i (o : option (gmat * nat)) => match o with
    | None => find_rows f (trand nt) m n s = None
    | Some (A', s1) => gok n m A' /\ exists l1, length l1 = i /\ gdata A' = l1 ++ skipn i (gdata A) /\
        find_rows f (trand nt) m n s = match find_rows f (trand nt) m (n - i) s1 with None => None | Some (l, s2) => Some (l1 ++ l, s2) end
    end).
  - lia.
  - split; [exact HA|]. exists []. split; [reflexivity|]. split; [reflexivity|]. rewrite Nat.sub_0_r.
    destruct (find_rows _ _ _ _ _) as [[? ?]|]; reflexivity.
  - intros i [[A' s1]|] _ Hi Ho; [|apply wp_ok; exact Ho]. destruct Ho as (HA' & l1 & L1 & D1 & F1).
    rewrite (draw_row_eq nt f n m) by assumption. apply wp_ok.
    replace (n - i) with (S (n - S i)) in F1 by lia. cbn [find_rows] in F1.
    destruct (find_row f (trand nt) m s1) as [[r s2]|] eqn:E; [|exact F1].
    split; [apply setrow_ok; auto; apply (find_row_length _ _ _ _ _ _ E)|]. exists (l1 ++ [r]).
    split; [rewrite app_length; cbn [length]; lia|]. split.
    + cbn [setrow gdata]. rewrite D1. apply skipn_upd_app; [exact L1|]. rewrite (proj1 (proj2 (proj2 HA))). exact Hi.
    + rewrite F1. destruct (find_rows f (trand nt) m (n - S i) s2) as [[l s3]|]; [|reflexivity]. rewrite <- app_assoc. reflexivity.
  - intros [[A' s1]|] Ho; [|rewrite Ho; reflexivity]. destruct Ho as (HA' & l1 & L1 & D1 & F1).
    rewrite F1, Nat.sub_diag. cbn [find_rows]. rewrite app_nil_r. f_equal. f_equal.
    rewrite skipn_all2, app_nil_r in D1 by (rewrite (proj1 (proj2 (proj2 HA))); lia).
    destruct A' as [r c d]. destruct HA' as (X1 & X2 & X3 & X4). cbn [grows gcols gdata] in *. congruence.
Qed.

(** [find_rows] and the relation *)
Lemma find_row_sound : forall f rnd m s r s', find_row f rnd m s = Some (r, s') ->
  forall n s2 l, rows_from rnd m n s' s2 l -> rows_from rnd m (S n) s s2 (r :: l).
Proof.
  induction f as [|f IH]; intros rnd m s r s' H n s2 l HR; cbn [find_row] in H; destruct (Nat.eqb_spec (ones (block rnd m s)) 1); try discriminate.
  - injection H as <- <-. apply rows_take; assumption.
  - apply rows_skip; [assumption|]. apply (IH _ _ _ _ _ H). exact HR.
  - injection H as <- <-. apply rows_take; assumption.
Qed.
Lemma find_rows_sound : forall f rnd m n s l s', find_rows f rnd m n s = Some (l, s') -> rows_from rnd m n s s' l.
Proof.
  induction n as [|n IH]; intros s l s' H; cbn [find_rows] in H.
  - injection H as <- <-. apply rows_end.
  - destruct (find_row f rnd m s) as [[r s1]|] eqn:E; [|discriminate]. destruct (find_rows f rnd m n s1) as [[l1 s2]|] eqn:E2; [|discriminate].
    injection H as <- <-. apply (find_row_sound _ _ _ _ _ _ E). apply IH. exact E2.
Qed.
Lemma find_row_mono : forall f rnd m s x g, find_row f rnd m s = Some x -> f <= g -> find_row g rnd m s = Some x.
Proof.
  induction f as [|f IH]; intros rnd m s x g H L; destruct g as [|g]; try lia; cbn [find_row] in *;
    destruct (Nat.eqb (ones (block rnd m s)) 1); try discriminate; auto. apply IH; [exact H|lia].
Qed.
Lemma find_rows_complete : forall rnd m n s s' l, rows_from rnd m n s s' l ->
  exists f0, forall f, f0 <= f -> find_rows f rnd m n s = Some (l, s').
Proof.
  intros rnd m n s s' l H. induction H as [s|n s s' l H1 H2 [f0 IH]|n s s' l H1 H2 [f0 IH]].
  - exists 0. reflexivity.
  - exists (S f0). intros f Hf. assert (E := IH f ltac:(lia)). assert (E' := IH (f - 1) ltac:(lia)).
    cbn [find_rows] in *. destruct f as [|f]; [lia|]. replace (S f - 1) with f in E' by lia. cbn [find_row]. rewrite H1. cbn [Nat.eqb].
    destruct (find_row f rnd m (s + m)) as [[r s1]|] eqn:E1; [|discriminate].
    rewrite (find_row_mono f _ _ _ _ (S f) E1) in E by lia. exact E.
  - exists f0. intros f Hf. cbn [find_rows]. assert (E : find_row f rnd m s = Some (block rnd m s, s + m)).
    { destruct f; cbn [find_row]; destruct (Nat.eqb_spec (ones (block rnd m s)) 1); try reflexivity; contradiction. }
    rewrite E, IH by exact Hf. reflexivity.
Qed.
Lemma rows_from_ok : forall rnd m n s s' l, rows_from rnd m n s s' l -> gok n m (mkgmat n m l).
Proof.
  intros rnd m n s s' l H. destruct (find_rows_complete _ _ _ _ _ _ H) as [f0 F]. specialize (F f0 (le_n _)).
  destruct (find_rows_length _ _ _ _ _ _ _ F) as [L1 L2]. repeat split; assumption.
Qed.

Section Ntl.
Variable nt : ntl.
Hypothesis HN : ntl_ok nt.

Lemma random_inv_sound : forall n f f' s,
  wp (random_inv f f' nt n s) (fun o => match o with
    | None => True
    | Some (A, s') => exists l, A = mkgmat n n l /\ inv_from (trand nt) n s s' l end).
Proof.
  intros n f. induction f' as [|f' IH]; intros s; cbn [random_inv]; unfold random_mat; rewrite (draw_rows_eq nt) by apply gdims_ok; cbn [bind];
    destruct (find_rows f (trand nt) n n s) as [[l s1]|] eqn:E; try (apply wp_ok; exact I);
    apply find_rows_sound in E; assert (HG := rows_from_ok _ _ _ _ _ _ E); rewrite (gsingular_eq nt n) by exact HG; cbn [bind];
    destruct (HN n _ HG) as [H1 _]; destruct (tdet nt (mkgmat n n l)) eqn:D; cbn [negb].
  - apply wp_ok. exists l. split; [reflexivity|]. apply inv_take; [exact E|]. apply H1. reflexivity.
  - apply wp_ok. exact I.
  - apply wp_ok. exists l. split; [reflexivity|]. apply inv_take; [exact E|]. apply H1. reflexivity.
  - eapply wp_mono; [apply IH|]. intros [[A s']|]; [|auto]. intros (l' & -> & Hl). exists l'. split; [reflexivity|].
    apply (inv_skip _ _ s s1 s' l l'); auto. intros X. apply H1 in X. discriminate.
Qed.
Lemma random_inv_complete : forall n s s' l, inv_from (trand nt) n s s' l ->
  exists f0, forall f f', f0 <= f -> f0 <= f' -> random_inv f f' nt n s = Ok (Some (mkgmat n n l, s')).
Proof.
  intros n s s' l H. induction H as [s s' l H1 H2|s s1 s' l1 l H1 H2 H3 [f1 IH]].
  - destruct (find_rows_complete _ _ _ _ _ _ H1) as [f0 F]. exists f0. intros f f' Hf Hf'.
    assert (HG := rows_from_ok _ _ _ _ _ _ H1). destruct (HN n _ HG) as [D _].
    destruct f'; cbn [random_inv]; unfold random_mat; rewrite (draw_rows_eq nt) by apply gdims_ok; rewrite F by exact Hf; cbn [bind];
      rewrite (gsingular_eq nt n) by exact HG; cbn [bind]; rewrite (proj2 D H2); reflexivity.
  - destruct (find_rows_complete _ _ _ _ _ _ H1) as [f0 F]. exists (S (Nat.max f0 f1)). intros f f' Hf Hf'.
    assert (HG := rows_from_ok _ _ _ _ _ _ H1). destruct (HN n _ HG) as [D _].
    destruct f' as [|f']; [lia|]. cbn [random_inv]; unfold random_mat; rewrite (draw_rows_eq nt) by apply gdims_ok; rewrite F by lia; cbn [bind].
    rewrite (gsingular_eq nt n) by exact HG. cbn [bind]. destruct (tdet nt (mkgmat n n l1)) eqn:T; [exfalso; apply H2, D; reflexivity|].
    cbn [negb]. apply IH; lia.
Qed.
Lemma inv_from_ok : forall n s s' l, inv_from (trand nt) n s s' l ->
  gok n n (mkgmat n n l) /\ invertible n (gat (mkgmat n n l)).
Proof. intros n s s' l H. induction H; auto. split; [apply (rows_from_ok _ _ _ _ _ _ H)|assumption]. Qed.

(** The other loops *)
Lemma init_loop_eq : forall n f f' A s, gok n n A ->
  init_loop f f' nt n true A s = (o <- random_inv f f' nt n s ;;
    match o with None => Ok None | Some (A, s') => B <- ginv nt A ;; Ok (Some (A, Some B, s')) end).
Proof.
  intros n f. induction f' as [|f' IH]; intros A s HA; cbn [init_loop random_inv]; unfold random_mat;
    rewrite (draw_rows_eq nt f n n A) by exact HA; rewrite (draw_rows_eq nt f n n (gdims n n)) by apply gdims_ok; cbn [bind negb];
    destruct (find_rows f (trand nt) n n s) as [[l s1]|] eqn:E; try reflexivity;
    apply find_rows_sound in E; assert (HG := rows_from_ok _ _ _ _ _ _ E); rewrite (gsingular_eq nt n) by exact HG; cbn [bind];
    destruct (tdet nt (mkgmat n n l)); cbn [negb]; try reflexivity. apply IH. exact HG.
Qed.
Lemma invt_loop_eq : forall n f f' A s, gok n n A -> invt_loop f f' nt n A s = random_inv f f' nt n s.
Proof.
  intros n f. induction f' as [|f' IH]; intros A s HA; cbn [invt_loop random_inv]; unfold random_mat;
    rewrite (draw_rows_eq nt f n n A) by exact HA; rewrite (draw_rows_eq nt f n n (gdims n n)) by apply gdims_ok; cbn [bind negb];
    destruct (find_rows f (trand nt) n n s) as [[l s1]|] eqn:E; try reflexivity;
    apply find_rows_sound in E; assert (HG := rows_from_ok _ _ _ _ _ _ E); rewrite (gsingular_eq nt n) by exact HG; cbn [bind];
    destruct (tdet nt (mkgmat n n l)); cbn [negb]; try reflexivity. apply IH. exact HG.
Qed.
Lemma initVec_eq : forall n s, initVec nt n s = Ok (block (trand nt) n s, s + n).
Proof.
  intros n s. apply wp_eq. unfold initVec.
  apply wp_for_up with (I := fun j (st : gvec * nat) => length (fst st) = n /\ snd st = s + j /\ forall k, k < j -> gv (fst st) k = trand nt (s + k)).
  - lia.
  - cbn [fst snd]. split; [apply repeat_length|]. split; [lia|intros; lia].
  - intros j [v t] _ Hj (L & Et & E). cbn [fst snd] in *. subst t. apply wp_bind, (wp_vput n); auto. intros v' L' E'. apply wp_ok. cbn [fst snd].
    split; [exact L'|]. split; [lia|]. intros k Hk. rewrite E'. destruct (Nat.eqb_spec k j) as [->|]; [reflexivity|]. apply E. lia.
  - intros [v t] (L & Et & E). cbn [fst snd] in *. subst t. f_equal. apply (gv_ext n); [exact L|apply block_length|].
    intros k Hk. rewrite E by exact Hk. unfold gv. rewrite block_nth by exact Hk. reflexivity.
Qed.
End Ntl.
