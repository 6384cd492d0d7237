(** Template matching. *)
From Coq Require Import Arith NArith ZArith QArith List Bool Lia.
From Verif Require Import Base Spec LinAlg Mem ModelRank ModelBM ModelNist ModelNist2 SpecNist SpecNist2 LCCount RankCount Nist1 Nist2 Nist3.
Import ListNotations.
Local Open Scope nat_scope.

Lemma skipn_skipn : forall A x y (l : list A), skipn x (skipn y l) = skipn (x + y) l.
Proof.
  intros A x y. induction y as [|y IH]; intros l; [rewrite Nat.add_0_r; reflexivity|]. rewrite Nat.add_succ_r.
  destruct l as [|a l]; [rewrite !skipn_nil; reflexivity|]. apply IH.
Qed.
Lemma eqlist_iff : forall a b, eqlist a b = true <-> a = b.
Proof. intros a b. unfold eqlist. destruct (list_eq_dec N.eq_dec a b); split; intros; auto; congruence. Qed.
Definition occb (B w : list N) (p : nat) : bool := eqlist (pyslice w p (p + length B)) B.
Lemma occb_iff : forall B w p, p + length B <= length w -> (occb B w p = true <-> occurs B w p).
Proof.
  intros B w p H. unfold occb. rewrite eqlist_iff. unfold pyslice, occurs. replace (p + length B - p) with (length B) by lia. tauto.
Qed.
Lemma no_overlap : forall B w p q, unbordered B -> occb B w p = true -> occb B w q = true -> p < q -> p + length B <= q.
Proof.
  intros B w p q HB Hp Hq Hlt. unfold occb in *. rewrite eqlist_iff in *. unfold pyslice in *.
  replace (p + length B - p) with (length B) in Hp by lia. replace (q + length B - q) with (length B) in Hq by lia.
  destruct (Nat.le_gt_cases (p + length B) q) as [|Hd]; [assumption|]. exfalso. apply (HB (q - p)); [lia|].
  rewrite <- Hp at 3. rewrite <- Hq at 2. rewrite skipn_firstn_comm, firstn_firstn, skipn_skipn.
  replace (q - p + p) with q by lia. f_equal. lia.
Qed.
Lemma scan_ok : forall fuel B w M pos c, unbordered B -> B <> [] -> length w = M -> M - length B - pos < fuel ->
  scan fuel B w M pos c = Ok (c + length (filter (occb B w) (seq pos (M - length B - pos)))).
Proof.
  induction fuel as [|f IH]; intros B w M pos c HB Hne HL Hf; [lia|]. cbn [scan].
  assert (Hm : 0 < length B) by (destruct B; [congruence|simpl; lia]).
  destruct (Z.ltb_spec (Z.of_nat pos) (Z.of_nat M - Z.of_nat (length B))) as [Hp|Hp].
  - fold (occb B w pos). destruct (M - length B - pos) as [|k] eqn:Ek; [lia|]. cbn [seq filter].
    destruct (occb B w pos) eqn:Eo.
    + rewrite IH by (auto; lia). cbn [length]. f_equal.
      assert (E : filter (occb B w) (seq (S pos) k) = filter (occb B w) (seq (pos + length B) (M - length B - (pos + length B)))).
      { assert (Hskip : forall s j, (forall i, i < j -> s + i < pos + length B) -> pos < s -> filter (occb B w) (seq s j) = []).
        { intros s j. revert s. induction j as [|j IHj]; intros s H1 H2; [reflexivity|]. cbn [seq filter].
          destruct (occb B w s) eqn:Es.
          - assert (X := no_overlap B w pos s HB Eo Es H2). specialize (H1 0). lia.
          - apply IHj; [|lia]. intros i Hi. specialize (H1 (S i)). lia. }
        destruct (Nat.le_gt_cases k (length B - 1)).
        - rewrite Hskip by (intros; lia). replace (M - length B - (pos + length B)) with 0 by lia. reflexivity.
        - replace k with ((length B - 1) + (M - length B - (pos + length B))) by lia. rewrite seq_app, filter_app, Hskip by (intros; lia).
          cbn [app]. f_equal. f_equal. lia. }
      rewrite E. lia.
    + rewrite IH by (auto; lia). f_equal. f_equal. replace (pos + 1) with (S pos) by lia. replace (M - length B - S pos) with k by lia. reflexivity.
  - replace (M - length B - pos) with 0 by lia. simpl. f_equal. lia.
Qed.

(** ** The table of templates *)
Definition unb (B : list N) : bool := forallb (fun d => negb (eqlist (firstn (length B - d) B) (skipn d B))) (seq 1 (length B - 1)).
Lemma unb_iff : forall B, unb B = true <-> unbordered B.
Proof.
  intros B. unfold unb, unbordered. rewrite forallb_forall. split.
  - intros H d Hd E. specialize (H d ltac:(apply in_seq; lia)). apply eqlist_iff in E. rewrite E in H. discriminate.
  - intros H d Hd. apply in_seq in Hd. destruct (eqlist _ _) eqn:E; [|reflexivity]. exfalso. apply eqlist_iff in E. apply (H d); [lia|exact E].
Qed.
Definition subl (a b : list (list N)) : bool := forallb (fun x => existsb (eqlist x) b) a.
Lemma subl_ok : forall a b, subl a b = true -> forall x, In x a -> In x b.
Proof.
  intros a b H x Hx. unfold subl in H. rewrite forallb_forall in H. specialize (H x Hx). apply existsb_exists in H as (y & Hy & E).
  apply eqlist_iff in E. subst. exact Hy.
Qed.
Fixpoint nodupb (a : list (list N)) : bool := match a with [] => true | x :: a' => negb (existsb (eqlist x) a') && nodupb a' end.
Lemma nodupb_ok : forall a, nodupb a = true -> NoDup a.
Proof.
  induction a as [|x a IH]; intros H; constructor.
  - cbn [nodupb] in H. apply andb_true_iff in H as [H _]. intros K. apply negb_true_iff in H.
    assert (X : existsb (eqlist x) a = true) by (apply existsb_exists; exists x; split; [exact K|apply eqlist_iff; reflexivity]). congruence.
  - apply IH. cbn [nodupb] in H. apply andb_true_iff in H. apply H.
Qed.
Definition templ_ok (k : nat) : bool :=
  let t := nth k templates [] in let u := filter unb (words (k + 2)) in subl t u && subl u t && nodupb t.
Lemma templ_all : length templates = 7 /\ forallb templ_ok (seq 0 7) = true.
Proof. split; vm_compute; reflexivity. Qed.
Lemma templ_iff : forall k, k < 7 -> NoDup (nth k templates []) /\ forall B, In B (nth k templates []) <-> length B = k + 2 /\ isbits B /\ unbordered B.
Proof.
  intros k Hk. destruct templ_all as [_ H]. rewrite forallb_forall in H. specialize (H k ltac:(apply in_seq; lia)).
  unfold templ_ok in H. apply andb_true_iff in H as [H H3]. apply andb_true_iff in H as [H1 H2]. split; [apply nodupb_ok, H3|].
  intros B. split.
  - intros HB. apply (subl_ok _ _ H1) in HB. apply filter_In in HB as [HB HU]. apply words_in in HB as [HL HB]. apply unb_iff in HU. auto.
  - intros (HL & HB & HU). apply (subl_ok _ _ H2). apply filter_In. split; [apply words_in; auto|apply unb_iff, HU].
Qed.

(** ** The mean of the number of occurrences *)
Definition total (g : list N -> nat) (l : list (list N)) : nat := fold_right (fun w a => g w + a) 0 l.
Lemma total_filter : forall (p : list N -> bool) l, total (fun w => if p w then 1 else 0) l = length (filter p l).
Proof. intros p l. induction l as [|a l IH]; [reflexivity|]. cbn [total fold_right filter]. fold (total (fun w => if p w then 1 else 0) l). rewrite IH. destruct (p a); reflexivity. Qed.
Lemma total_add : forall g h l, total (fun w => g w + h w) l = total g l + total h l.
Proof. intros g h l. unfold total. induction l as [|a l IH]; [reflexivity|]. cbn [fold_right]. rewrite IH. lia. Qed.
Lemma total_ext : forall g h l, (forall w, In w l -> g w = h w) -> total g l = total h l.
Proof. intros g h l H. unfold total. induction l as [|a l IH]; [reflexivity|]. cbn [fold_right]. rewrite IH, H; simpl; auto. intros. apply H. simpl; auto. Qed.
Lemma total_swap : forall (o : list N -> nat -> bool) l K,
  total (fun w => length (filter (o w) (seq 0 K))) l = fold_right (fun p a => length (filter (fun w => o w p) l) + a) 0 (seq 0 K).
Proof.
  intros o l K. induction K as [|K IH].
  - induction l as [|a l IH]; [reflexivity|]. exact IH.
  - rewrite (total_ext _ (fun w => length (filter (o w) (seq 0 K)) + (if o w K then 1 else 0))).
    + rewrite total_add, IH, (total_filter (fun w => o w K)), seq_S, fold_right_app. cbn [fold_right plus]. rewrite Nat.add_0_r.
      generalize (seq 0 K). intros s. generalize (length (filter (fun w => o w K) l)). intros y. induction s as [|p s IHs]; cbn [fold_right]; lia.
    + intros w _. rewrite seq_S, filter_app, app_length. cbn [filter plus]. destruct (o w K); simpl; lia.
Qed.
Lemma words_with : forall B M p, isbits B -> p + length B <= M ->
  N.of_nat (length (filter (fun w => occb B w p) (words M))) = (2 ^ N.of_nat (M - length B))%N.
Proof.
  intros B M p HB Hp. set (b := M - length B - p).
  set (L := flat_map (fun a => map (fun c => a ++ B ++ c) (words b)) (words p)).
  assert (HL : N.of_nat (length L) = (2 ^ N.of_nat (M - length B))%N).
  { unfold L. replace (M - length B) with (p + b) by (unfold b; lia). rewrite Nat2N.inj_add, N.pow_add_r, <- !words_len.
    generalize (words p). intros l. induction l as [|a l IH]; [reflexivity|]. cbn [flat_map length]. rewrite app_length, map_length, Nat2N.inj_add, IH. lia. }
  rewrite <- HL. f_equal.
  assert (Ain : forall w, In w L <-> In w (filter (fun w => occb B w p) (words M))).
  { intros w. unfold L. rewrite in_flat_map, filter_In, words_in. split.
    - intros (a & Ha & Hw). apply in_map_iff in Hw as (c & <- & Hc). apply words_in in Ha as [La Ba], Hc as [Lc Bc]. split; [split|].
      + rewrite !app_length. unfold b in *. lia.
      + intros x Hx. apply in_app_iff in Hx as [Hx|Hx]; [auto|]. apply in_app_iff in Hx as [Hx|Hx]; auto.
      + apply occb_iff; [rewrite !app_length; unfold b in *; lia|]. split; [rewrite !app_length; lia|].
        rewrite <- La, skipn_app, skipn_all, Nat.sub_diag. cbn [app skipn]. rewrite firstn_app, firstn_all, Nat.sub_diag. cbn [firstn]. apply app_nil_r.
    - intros [[HLw Hw] Ho]. apply occb_iff in Ho; [|lia]. destruct Ho as [_ Ho]. exists (firstn p w). split.
      + apply words_in. split; [rewrite firstn_length; lia|]. intros x Hx. apply Hw. rewrite <- (firstn_skipn p w). apply in_app_iff. auto.
      + apply in_map_iff. exists (skipn (p + length B) w). split.
        * rewrite <- Ho at 1. rewrite (Nat.add_comm p), <- skipn_skipn, firstn_skipn, firstn_skipn. reflexivity.
        * apply words_in. split; [rewrite skipn_length; unfold b; lia|]. intros x Hx. apply Hw. rewrite <- (firstn_skipn (p + length B) w). apply in_app_iff. auto. }
  assert (ND : NoDup L).
  { unfold L. assert (Hl : forall a, In a (words p) -> length a = p) by (intros a Ha; apply words_in in Ha; apply Ha).
    assert (W := words_nodup p). clear Ain HL. clearbody b. clear L. induction W as [|a l Ha W IH]; [constructor|]. cbn [flat_map]. apply nodup_app.
    - apply nodup_map_in; [|apply words_nodup]. intros x y _ _ E. apply app_inv_head, app_inv_head in E. exact E.
    - apply IH. intros; apply Hl; simpl; auto.
    - intros x Hx Hy. apply in_map_iff in Hx as (c & <- & _). apply in_flat_map in Hy as (a' & Ha' & Hy). apply in_map_iff in Hy as (c' & E & _).
      apply Ha. replace a with a'; auto. assert (X := f_equal (firstn p) E).
      rewrite <- (Hl a) in X at 2 by (simpl; auto). rewrite <- (Hl a') in X at 1 by (simpl; auto).
      rewrite !firstn_app, !firstn_all, !Nat.sub_diag in X. cbn [firstn] in X. rewrite !app_nil_r in X. exact X. }
  apply Nat.le_antisymm; apply NoDup_incl_length; auto; try (apply NoDup_filter, words_nodup); intros w Hw; apply Ain; exact Hw.
Qed.
Lemma total_occ : forall B M K, isbits B -> K + length B <= M + 1 ->
  N.of_nat (total (fun w => length (filter (occb B w) (seq 0 K))) (words M)) = (N.of_nat K * 2 ^ N.of_nat (M - length B))%N.
Proof.
  intros B M K HB HK. rewrite total_swap. revert HK.
  assert (G : forall s, (forall p, In p s -> p + length B <= M) ->
    N.of_nat (fold_right (fun p a => length (filter (fun w => occb B w p) (words M)) + a) 0 s) = (N.of_nat (length s) * 2 ^ N.of_nat (M - length B))%N).
  { induction s as [|p s IH]; intros H; [reflexivity|]. cbn [fold_right length]. rewrite Nat2N.inj_add, IH by (intros; apply H; simpl; auto).
    rewrite words_with by (auto; apply H; simpl; auto). rewrite Nat2N.inj_succ. lia. }
  intros HK. rewrite G; [rewrite seq_length; reflexivity|]. intros p Hp. apply in_seq in Hp. lia.
Qed.

(** ** chi-square *)
Lemma template_chisq_eq : forall M m W, 0 < M -> 0 < m ->
  (template_chisq M m W == nist_chisq M m W / nist_variance M m)%Q.
Proof.
  intros M m W HM Hm. unfold template_chisq, nist_chisq.
  assert (HP : (~ inject_Z (2 ^ Z.of_nat m) == 0)%Q) by apply (p2_nz m).
  assert (Ev : (inject_Z (Z.of_nat M) * (1 / inject_Z (2 ^ Z.of_nat m) - (2 * inject_Z (Z.of_nat m) - 1) / (inject_Z (2 ^ Z.of_nat m) * inject_Z (2 ^ Z.of_nat m))) == nist_variance M m)%Q).
  { unfold nist_variance. rewrite <- inject_Z_mult, <- Z.pow_add_r by lia. replace (Z.of_nat m + Z.of_nat m)%Z with (2 * Z.of_nat m)%Z by lia.
    unfold Z.sub. rewrite (inject_Z_plus (2 * Z.of_nat m)), inject_Z_mult. reflexivity. }
  assert (Em : ((inject_Z (Z.of_nat M) - inject_Z (Z.of_nat m) + 1) / inject_Z (2 ^ Z.of_nat m) == nist_mean M m)%Q).
  { unfold nist_mean. unfold Z.sub. rewrite !inject_Z_plus, inject_Z_opp. reflexivity. }
  set (v := nist_variance M m) in *. set (mu := nist_mean M m) in *.
  set (v' := (inject_Z (Z.of_nat M) * _)%Q) in *. set (mu' := ((inject_Z (Z.of_nat M) - inject_Z (Z.of_nat m) + 1) / inject_Z (2 ^ Z.of_nat m))%Q) in *. clearbody v' mu'.
  assert (G : forall a, (fold_left (fun chisq w => chisq + (inject_Z (Z.of_nat w) - mu') * (inject_Z (Z.of_nat w) - mu') / (v' * v'))%Q W a ==
     a + fold_right Qplus 0 (map (fun w => let d := (inject_Z (Z.of_nat w) - mu) in d * d / v) W) / v)%Q).
  { induction W as [|w W IH]; intros a; cbn [fold_left map fold_right].
    - unfold Qdiv. rewrite Qmult_0_l, Qplus_0_r. reflexivity.
    - rewrite IH. rewrite Ev, Em. cbv zeta. unfold Qdiv. rewrite Qinv_mult_distr. ring. }
  rewrite G. rewrite Qplus_0_l. reflexivity.
Qed.
