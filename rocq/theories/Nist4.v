(** Random excursions: cycles, counts. *)
From Coq Require Import Arith NArith ZArith QArith List Bool Lia.
From Verif Require Import Base Spec LinAlg Mem ModelRank ModelBM ModelNist ModelNist2 SpecNist LCCount Nist1 Nist3.
Import ListNotations.
Local Open Scope nat_scope.

Lemma sprime_walk : forall bits, isbits bits -> sprime bits = map (walk bits) (seq 0 (S (length bits))) ++ [0%Z].
Proof.
  intros bits Hb. unfold sprime.
  assert (G : forall x, fold_left (fun st e => let '(pos, s) := st in let pos := (pos + e)%Z in (pos, s ++ [pos])) x (0%Z, []) =
    (sumZ x, map (fun k => sumZ (firstn k x)) (seq 1 (length x)))).
  { intros x. induction x as [|e x IH] using rev_ind; [reflexivity|]. rewrite fold_left_app, IH. cbn [fold_left].
    rewrite sumZ_app, app_length. cbn [length]. replace (sumZ [e]) with e by (unfold sumZ; simpl; lia). f_equal.
    rewrite Nat.add_1_r, seq_S, map_app. cbn [map plus]. f_equal.
    - apply map_ext_in. intros k Hk. apply in_seq in Hk. rewrite firstn_app. replace (k - length x) with 0 by lia.
      cbn [firstn]. rewrite app_nil_r. reflexivity.
    - rewrite firstn_all2 by (rewrite app_length; simpl; lia). rewrite sumZ_app. unfold sumZ at 3. simpl. f_equal. lia. }
  rewrite G. cbn [snd]. unfold plusminus at 2. rewrite map_length. cbn [seq map app]. f_equal. f_equal.
  apply map_ext. intros k. apply walk_sum, Hb.
Qed.

(** a cycle: it starts and ends with 0 and is not 0 in between *)
Definition iscycle (c : list Z) : Prop := exists mid, c = 0%Z :: mid ++ [0%Z] /\ forall z, In z mid -> z <> 0%Z.

Lemma cut_zero : forall s, s <> [] -> last s 1%Z = 0%Z -> exists mid rest, s = mid ++ 0%Z :: rest /\
  (forall z, In z mid -> z <> 0%Z) /\ (rest = [] \/ last rest 1%Z = 0%Z).
Proof.
  induction s as [|a s IH]; intros H HL; [congruence|]. destruct (Z.eq_dec a 0) as [->|Ha].
  - exists [], s. split; auto. split; [intros z []|]. destruct s; [auto|right; exact HL].
  - destruct s as [|b s]; [simpl in HL; congruence|].
    destruct IH as (mid & rest & E & H1 & H2); [discriminate|exact HL|]. exists (a :: mid), rest. split; [rewrite E; reflexivity|].
    split; auto. intros z [<-|Hz]; auto.
Qed.
Lemma skipn_nth : forall A (l : list A) p x r d, skipn p l = x :: r -> nth p l d = x /\ skipn (p + 1) l = r /\ p < length l.
Proof.
  intros A l. induction l as [|a l IH]; intros [|p] x r d H; simpl in H; try discriminate.
  - injection H as -> ->. simpl. repeat split; auto. lia.
  - destruct (IH p x r d H) as (E1 & E2 & E3). simpl. repeat split; auto. lia.
Qed.
Lemma cycle_loop_ok : forall mid sp pos fuel cyc rest, skipn pos sp = mid ++ 0%Z :: rest -> (forall z, In z mid -> z <> 0%Z) ->
  length mid < fuel -> cycle_loop fuel sp pos cyc = Ok (cyc ++ mid, pos + length mid) /\ skipn (pos + length mid + 1) sp = rest.
Proof.
  induction mid as [|a mid IH]; intros sp pos fuel cyc rest H Hz Hf; (destruct fuel as [|fuel]; [simpl in Hf; lia|]); cbn [cycle_loop].
  - destruct (skipn_nth _ _ _ _ _ 0%Z H) as (E1 & E2 & E3). rewrite (aget_ok _ _ _ 0%Z) by exact E3. rewrite E1. cbn [bind Z.eqb length].
    rewrite app_nil_r, Nat.add_0_r. auto.
  - destruct (skipn_nth _ _ _ _ _ 0%Z H) as (E1 & E2 & E3). rewrite (aget_ok _ _ _ 0%Z) by exact E3. rewrite E1. cbn [bind].
    assert (Ha : (a =? 0)%Z = false) by (apply Z.eqb_neq, Hz; simpl; auto). rewrite Ha.
    destruct (IH sp (pos + 1) fuel (cyc ++ [a]) rest E2) as [F1 F2]; [intros; apply Hz; simpl; auto|simpl in Hf; lia|].
    rewrite F1. cbn [length]. rewrite <- app_assoc. cbn [app].
    replace (pos + 1 + length mid) with (pos + S (length mid)) in * by lia. auto.
Qed.
Lemma skipn_len0 : forall A (l : list A) p, length l <= p -> skipn p l = [].
Proof. intros A l p H. apply length_zero_iff_nil. rewrite skipn_length. lia. Qed.
Lemma cycles_loop_ok : forall n s sp pos fuel cs, length s <= n -> skipn pos sp = s -> (s = [] \/ last s 1%Z = 0%Z) -> length s < fuel ->
  (length s = length sp - pos) ->
  exists cs', cycles_loop fuel sp pos cs = Ok (cs ++ cs') /\ concat (map (@tl Z) cs') = s /\ forall c, In c cs' -> iscycle c.
Proof.
  induction n as [|n IH]; intros s sp pos fuel cs Hn Hs Hl Hf HL; (destruct fuel as [|fuel]; [lia|]); cbn [cycles_loop].
  - destruct s; [|simpl in Hn; lia]. simpl in HL. destruct (Nat.ltb_spec pos (length sp)); [lia|].
    exists []. rewrite app_nil_r. repeat split; auto. intros c [].
  - destruct (Nat.ltb_spec pos (length sp)) as [Hp|Hp].
    + destruct Hl as [->|Hl]; [simpl in HL; lia|].
      destruct (cut_zero s) as (mid & rest & E & H1 & H2); auto; [intros ->; simpl in HL; lia|].
      rewrite E in Hs. assert (El := f_equal (@length Z) E). rewrite app_length in El. cbn [length] in El.
      destruct (cycle_loop_ok mid sp pos (length sp) [0%Z] rest Hs H1) as [F1 F2]; [lia|]. rewrite F1. cbn [bind].
      destruct (IH rest sp (pos + length mid + 1) fuel (cs ++ [([0%Z] ++ mid) ++ [0%Z]])) as (cs' & G1 & G2 & G3); auto; try lia.
      rewrite G1. exists ((([0%Z] ++ mid) ++ [0%Z]) :: cs'). rewrite <- app_assoc. cbn [app]. split; [reflexivity|]. split.
      * cbn [map concat tl app]. rewrite G2, E, <- app_assoc. reflexivity.
      * intros c [<-|Hc]; auto. exists mid. auto.
    + exists []. rewrite app_nil_r. destruct s; [|simpl in HL; lia]. repeat split; auto. intros c [].
Qed.
Lemma cycles_ok : forall bits, exists cs, cycles bits = Ok cs /\ 0%Z :: concat (map (@tl Z) cs) = sprime bits /\ forall c, In c cs -> iscycle c.
Proof.
  intros bits. unfold cycles. set (sp := sprime bits).
  assert (E : exists s, sp = 0%Z :: s ++ [0%Z]) by (eexists; reflexivity). destruct E as (s & E). clearbody sp.
  destruct (cycles_loop_ok (length (s ++ [0%Z])) (s ++ [0%Z]) sp 1 (length sp + 1) []) as (cs & H1 & H2 & H3); auto.
  - rewrite E. reflexivity.
  - right. apply last_last.
  - rewrite E. simpl. lia.
  - rewrite E. simpl. lia.
  - exists cs. split; [exact H1|]. rewrite H2, E. auto.
Qed.
Definition occ (x : Z) (l : list Z) : nat := count_occ Z.eq_dec l x.
Lemma cycles_zeros : forall cs, (forall c, In c cs -> iscycle c) -> occ 0 (concat (map (@tl Z) cs)) = length cs.
Proof.
  unfold occ. induction cs as [|c cs IH]; intros H; [reflexivity|]. cbn [map concat length]. rewrite count_occ_app, IH by (intros; apply H; simpl; auto).
  destruct (H c ltac:(simpl; auto)) as (mid & -> & Hm). cbn [tl]. rewrite count_occ_app.
  replace (count_occ Z.eq_dec mid 0%Z) with 0; [reflexivity|]. symmetry. apply count_occ_not_In. intros K. apply Hm in K. congruence.
Qed.
Lemma fold_occ : forall x l, fold_left (fun oc pos => if (pos =? x)%Z then oc + 1 else oc) l 0 = occ x l.
Proof.
  intros x l. induction l as [|a l IH] using rev_ind; [reflexivity|]. rewrite fold_left_app, IH. cbn [fold_left]. unfold occ. rewrite count_occ_app.
  cbn [count_occ]. destruct (Z.eqb_spec a x), (Z.eq_dec a x); try congruence; lia.
Qed.
Lemma fold_filter : forall A (p : A -> bool) l, fold_left (fun n a => if p a then n + 1 else n) l 0 = length (filter p l).
Proof.
  intros A p l. induction l as [|a l IH] using rev_ind; [reflexivity|]. rewrite fold_left_app, IH, filter_app, app_length. cbn [fold_left filter].
  destruct (p a); simpl; lia.
Qed.
Lemma vxk_ok : forall cs x k, vxk cs x k = if k <? 5 then length (filter (fun c => occ x c =? k) cs)
  else if k =? 5 then length (filter (fun c => 5 <=? occ x c) cs) else 0.
Proof.
  intros cs x k. unfold vxk. rewrite <- !fold_filter.
  assert (X : forall (f g : nat -> list Z -> nat) l n, (forall a b, f a b = g a b) -> fold_left f l n = fold_left g l n).
  { intros f g l. induction l as [|c l IH]; intros n H; [reflexivity|]. cbn [fold_left]. rewrite H. apply IH, H. }
  destruct (k <? 5); [|destruct (k =? 5)].
  - apply X. intros a b. rewrite fold_occ. reflexivity.
  - apply X. intros a b. rewrite fold_occ. reflexivity.
  - induction cs as [|c cs IH]; [reflexivity|]. exact IH.
Qed.
Lemma vxk_sum : forall cs x, vxk cs x 0 + vxk cs x 1 + vxk cs x 2 + vxk cs x 3 + vxk cs x 4 + vxk cs x 5 = length cs.
Proof.
  intros cs x. rewrite !vxk_ok. cbn [Nat.ltb Nat.leb Nat.eqb]. induction cs as [|c cs IH]; [reflexivity|]. cbn [filter length].
  destruct (occ x c) as [|[|[|[|[|n]]]]]; cbn [Nat.eqb Nat.leb length]; lia.
Qed.
Lemma variant_J_ok : forall bits, variant_J bits = occ 0 (tl (sprime bits)).
Proof. intros. unfold variant_J. apply fold_occ. Qed.

(** the counters, with negative indices *)
Definition slot (x : Z) : nat := if (0 <=? x)%Z then Z.to_nat x else Z.to_nat (19 + x).
Lemma py_slot : forall (l : list nat) x, length l = 19 -> (Z.abs x < 10)%Z -> py_ix l x = Ok (slot x) /\ slot x < 19.
Proof.
  intros l x HL Hx. unfold py_ix, slot. rewrite HL. change (Z.of_nat 19) with 19%Z.
  destruct (Z.leb_spec 0 x).
  - destruct (Z.ltb_spec x 19); [|lia]. cbn [andb]. split; [reflexivity|lia].
  - cbn [andb]. destruct (Z.leb_spec (- (19)) x); [|lia]. destruct (Z.ltb_spec x 0); [|lia]. cbn [andb]. split; [reflexivity|lia].
Qed.
Lemma slot_inj : forall x y, (Z.abs x < 10)%Z -> (Z.abs y < 10)%Z -> slot x = slot y -> x = y.
Proof. intros x y Hx Hy. unfold slot. destruct (Z.leb_spec 0 x), (Z.leb_spec 0 y); lia. Qed.
Lemma variant_count_ok : forall bits, exists count, variant_count bits = Ok count /\ length count = 19 /\
  forall x, (Z.abs x < 10)%Z -> pget count x = Ok (occ x (sprime bits)).
Proof.
  intros bits. unfold variant_count. set (sp := sprime bits). clearbody sp.
  assert (W : wp (for_up 0 (length sp) (fun i count => value <- aget sp i ;;
      if (Z.abs value <? 10)%Z then c <- pget count value ;; pset count value (c + 1) else Ok count) (repeat 0 19))
    (fun count => length count = 19 /\ forall x, (Z.abs x < 10)%Z -> nth (slot x) count 0 = occ x sp)).
  { apply (wp_for_up _ (fun t count => length count = 19 /\ forall x, (Z.abs x < 10)%Z -> nth (slot x) count 0 = occ x (firstn t sp))); [lia| | |].
    - split; [reflexivity|]. intros x Hx. cbn [firstn]. apply nth_repeat.
    - intros i count _ Hi [HL H]. apply wp_bind, (wp_aget _ _ _ 0%Z); [exact Hi|].
      assert (Ef : firstn (S i) sp = firstn i sp ++ [nth i sp 0%Z]).
      { clear - Hi. revert i Hi. induction sp as [|a sp IH]; intros i Hi; simpl in Hi; [lia|]. destruct i; [reflexivity|]. cbn [firstn nth app]. rewrite <- IH by lia. reflexivity. }
      set (v := nth i sp 0%Z) in *. rewrite Ef. unfold occ in *.
      destruct (Z.ltb_spec (Z.abs v) 10) as [Hv|Hv].
      + destruct (py_slot count v HL Hv) as [Ep Hs]. unfold pget, pset. rewrite Ep. cbn [bind].
        apply wp_bind, (wp_aget _ _ _ 0); [lia|]. apply wp_aset; [lia|]. rewrite length_upd. split; [exact HL|].
        intros x Hx. rewrite nth_upd by lia. rewrite count_occ_app. cbn [count_occ].
        destruct (Nat.eqb_spec (slot x) (slot v)) as [E|E].
        * apply slot_inj in E; auto. subst x. rewrite H by exact Hv. destruct (Z.eq_dec v v); [lia|congruence].
        * destruct (Z.eq_dec v x) as [->|]; [congruence|]. rewrite H by exact Hx. lia.
      + apply wp_ok. split; [exact HL|]. intros x Hx. rewrite count_occ_app. cbn [count_occ].
        destruct (Z.eq_dec v x) as [->|]; [lia|]. rewrite H by exact Hx. lia.
    - intros count [HL H]. rewrite firstn_all in H. auto. }
  apply wp_exists in W as (count & E & HL & H). exists count. refine (conj E (conj HL _)). intros x Hx.
  destruct (py_slot count x HL Hx) as [Ep Hs]. unfold pget. rewrite Ep. cbn [bind]. rewrite (aget_ok _ _ _ 0) by lia. rewrite H by exact Hx. reflexivity.
Qed.
