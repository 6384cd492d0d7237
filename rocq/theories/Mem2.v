(** Proofs about the cache of matrix headers *)
From Coq Require Import Arith ZArith NArith List Bool Lia Permutation.
From Verif Require Import Base ModelMem SpecMem SpecMemRun Mem1.
Import ListNotations.
Open Scope Z_scope.

(** ** log2_floor *)
Lemma land_high : forall v s, (v < 2 ^ (2 * s))%N -> N.land v (N.shiftl (N.ones s) s) = N.shiftl (N.shiftr v s) s.
Proof.
  intros v s Hv. apply N.bits_inj. intros k. rewrite N.land_spec.
  destruct (N.ltb_spec k s) as [Hk|Hk].
  - rewrite !N.shiftl_spec_low by auto. apply andb_false_r.
  - rewrite !N.shiftl_spec_high' by auto. rewrite N.shiftr_spec'. replace (k - s + s)%N with k by lia.
    destruct (N.ltb_spec (k - s) s) as [H|H]; [rewrite N.ones_spec_low by auto; apply andb_true_r|].
    rewrite N.ones_spec_high by auto. rewrite andb_false_r. symmetry.
    destruct (N.eq_dec v 0) as [->|]; [apply N.bits_0|]. apply N.bits_above_log2.
    apply N.log2_lt_pow2; [lia|]. apply N.lt_le_trans with (1 := Hv). apply N.pow_le_mono_r; lia.
Qed.
Lemma lor_add : forall K n, N.lor (K * 2 ^ (n + 1)) (2 ^ n) = (K * 2 ^ (n + 1) + 2 ^ n)%N.
Proof.
  intros K n. rewrite <- N.shiftl_mul_pow2.
  assert (L : N.land (N.shiftl K (n + 1)) (2 ^ n) = 0%N).
  { apply N.bits_inj. intros k. rewrite N.land_spec, N.bits_0. destruct (N.ltb_spec k (n + 1)).
    - rewrite N.shiftl_spec_low by auto. reflexivity.
    - rewrite N.pow2_bits_false by lia. apply andb_false_r. }
  rewrite (N.add_nocarry_lxor (N.shiftl K (n + 1)) (2 ^ n)) by exact L. rewrite N.lxor_lor by exact L. reflexivity.
Qed.
Lemma log2_floor_ok : forall v, (v <> 0)%N -> (v < 2 ^ 64)%N -> log2_floor v = Ok (N.log2 v).
Proof.
  intros v0 NZ Hv.
  assert (H : wp (log2_floor v0) (fun r => r = N.log2 v0)).
  { unfold log2_floor. apply wp_bind.
    apply wp_for_down with (I := fun i st => exists K, snd st = (K * 2 ^ N.of_nat i)%N /\ fst st = N.shiftr v0 (snd st) /\ fst st <> 0%N /\ (fst st < 2 ^ (2 ^ N.of_nat i))%N);
      [lia| | |].
    - exists 0%N. cbn [fst snd]. rewrite N.shiftr_0_r. repeat split; auto.
    - intros i [v r] _ Hi (K & E1 & E2 & E3 & E4). cbn [fst snd] in *.
      set (s := (2 ^ N.of_nat i)%N).
      assert (Es : aget lf_S i = Ok s) by (do 6 (destruct i as [|i]; [reflexivity|]); lia).
      assert (Eb : aget lf_b i = Ok (N.shiftl (N.ones s) s)) by (do 6 (destruct i as [|i]; [reflexivity|]); lia).
      rewrite Eb, Es. cbn [bind]. apply wp_ok.
      assert (Ei : N.of_nat (S i) = (N.of_nat i + 1)%N) by lia. rewrite Ei in E1, E4.
      assert (E2s : (2 ^ (N.of_nat i + 1) = 2 * s)%N) by (unfold s; rewrite N.add_1_r, N.pow_succ_r'; lia).
      rewrite E2s in E4. rewrite land_high by auto.
      destruct (N.eqb_spec (N.shiftl (N.shiftr v s) s) 0) as [Z0|Z0].
      + exists (K * 2)%N. cbn [fst snd]. split; [rewrite E1, E2s; unfold s; ring|]. split; auto. split; auto.
        rewrite N.shiftl_eq_0_iff in Z0. rewrite N.shiftr_div_pow2 in Z0. apply N.div_small_iff in Z0; auto. apply N.pow_nonzero. lia.
      + exists (2 * K + 1)%N. cbn [fst snd]. rewrite E1. unfold s at 2 5. rewrite lor_add. split; [|split; [|split]].
        * rewrite E2s. unfold s. ring.
        * rewrite E2, N.shiftr_shiftr, E1. reflexivity.
        * rewrite N.shiftl_eq_0_iff in Z0. exact Z0.
        * rewrite N.shiftr_div_pow2. apply N.div_lt_upper_bound; [apply N.pow_nonzero; lia|]. rewrite <- N.pow_add_r.
          apply N.lt_le_trans with (1 := E4). apply N.pow_le_mono_r; lia.
    - intros [v r] (K & E1 & E2 & E3 & E4). cbn [fst snd] in *. apply wp_ok. change (2 ^ 2 ^ N.of_nat 0)%N with 2%N in E4.
      assert (V1 : (v = 1)%N) by lia. rewrite V1 in E2. symmetry. rewrite N.shiftr_div_pow2 in E2.
      assert (P : (2 ^ r <> 0)%N) by (apply N.pow_nonzero; lia).
      pose proof (N.div_mod v0 (2 ^ r) P) as D. pose proof (N.mod_lt v0 (2 ^ r) P) as M. rewrite <- E2 in D.
      apply N.log2_unique; [apply N.le_0_l|]. rewrite N.pow_succ_r'. set (w := (2 ^ r)%N) in *. clearbody w. set (m := (v0 mod w)%N) in *. clearbody m. lia. }
  destruct (log2_floor v0); [cbn in H; subst; auto|destruct H].
Qed.

(** ** Cache blocks by their addresses *)
Lemma cset_ok : forall l p b0 b, cget l p = Ok b0 ->
  exists l', cset l p b = Ok l' /\ length l' = length l /\ forall q, cget l' q = if q =? p then Ok b else cget l q.
Proof.
  induction l as [|[q x] l IH]; intros p b0 b H; [discriminate H|]. cbn [cget cset] in *. destruct (Z.eqb_spec q p) as [->|Hq].
  - eexists. split; [reflexivity|]. split; [reflexivity|]. intros r. cbn [cget]. destruct (Z.eqb_spec p r), (Z.eqb_spec r p); congruence.
  - destruct (IH p b0 b H) as (l' & -> & L & G). cbn [bind]. eexists. split; [reflexivity|]. split; [cbn; lia|].
    intros r. cbn [cget]. rewrite G. destruct (Z.eqb_spec q r), (Z.eqb_spec r p); congruence.
Qed.
Lemma cremove_ok : forall l p b0, cget l p = Ok b0 -> S (length (cremove l p)) = length l /\ forall q, q <> p -> cget (cremove l p) q = cget l q.
Proof.
  induction l as [|[q x] l IH]; intros p b0 H; [discriminate H|]. cbn [cget cremove] in *. destruct (Z.eqb_spec q p) as [->|Hq].
  - split; [reflexivity|]. intros r Hr. destruct (Z.eqb_spec p r); congruence.
  - destruct (IH p b0 H) as [L G]. split; [cbn; lia|]. intros r Hr. cbn [cget]. rewrite G by auto. reflexivity.
Qed.

(** a chain of cache blocks, given by address and used, after prev and before nxt *)
Fixpoint linked (l : list (Z * cblk)) (prev : Z) (cs : list (Z * N)) (nxt : Z) : Prop :=
  match cs with
  | [] => True
  | (a, u) :: cs => cget l a = Ok (mkcblk prev (hd nxt (map fst cs)) u) /\ linked l a cs nxt
  end.
Lemma last_cons' : forall (m : list Z) a d, last (a :: m) d = last m a.
Proof.
  induction m as [|x m IH]; intros a d; [reflexivity|]. transitivity (last (x :: m) d); [reflexivity|].
  rewrite (IH x d). symmetry. apply IH.
Qed.
Lemma linked_app : forall l cs1 prev cs2 nxt, linked l prev (cs1 ++ cs2) nxt <->
  linked l prev cs1 (hd nxt (map fst cs2)) /\ linked l (last (map fst cs1) prev) cs2 nxt.
Proof.
  intros l cs1. induction cs1 as [|[a u] cs1 IH]; intros prev cs2 nxt; [cbn; tauto|]. cbn [app linked map fst]. rewrite IH.
  replace (hd nxt (map fst (cs1 ++ cs2))) with (hd (hd nxt (map fst cs2)) (map fst cs1)) by (destruct cs1; reflexivity).
  rewrite last_cons'. tauto.
Qed.
Lemma linked_frame : forall l l' cs prev nxt, (forall a, In a (map fst cs) -> cget l' a = cget l a) -> linked l prev cs nxt -> linked l' prev cs nxt.
Proof.
  intros l l' cs. induction cs as [|[a u] cs IH]; intros prev nxt H K; [exact I|]. cbn [linked map] in *. destruct K as [K1 K2].
  split; [rewrite H; auto; left; auto|]. apply IH; auto. intros b Hb. apply H. right. auto.
Qed.
Lemma linked_in : forall l cs prev nxt a u, linked l prev cs nxt -> In (a, u) cs -> exists p n, cget l a = Ok (mkcblk p n u).
Proof.
  intros l cs. induction cs as [|[b v] cs IH]; intros prev nxt a u K H; [destruct H|]. cbn [linked] in K. destruct K as [K1 K2]. destruct H as [E|H].
  - injection E as -> ->. eauto.
  - eauto.
Qed.

(** ** The headers in a cache block *)
Definition ent (a : Z) (u : N) : list Z :=
  map (fun i => a + HSIZE * Z.of_nat i) (filter (fun i => N.testbit u (N.of_nat i)) (seq 0 64)).
Definition ents (cs : list (Z * N)) : list Z := concat (map (fun c => ent (fst c) (snd c)) cs).
Lemma ent_in : forall a u h, In h (ent a u) <-> exists i, (i < 64)%nat /\ N.testbit u (N.of_nat i) = true /\ h = a + HSIZE * Z.of_nat i.
Proof.
  intros a u h. unfold ent. rewrite in_map_iff. split.
  - intros (i & <- & H). apply filter_In in H. destruct H as [H1 H2]. apply in_seq in H1. exists i. split; [lia|auto].
  - intros (i & H1 & H2 & ->). exists i. split; auto. apply filter_In. split; auto. apply in_seq. lia.
Qed.
Lemma filter_set : forall (f g : nat -> bool) i n m, f i = false -> g i = true -> (forall j, j <> i -> g j = f j) -> (n <= i < n + m)%nat ->
  Permutation (filter g (seq n m)) (i :: filter f (seq n m)).
Proof.
  intros f g i n m Hf Hg Hj. revert n. induction m as [|m IH]; intros n Hi; [lia|]. cbn [seq filter].
  destruct (Nat.eq_dec n i) as [->|Hn].
  - rewrite Hf, Hg. constructor. replace (filter g (seq (S i) m)) with (filter f (seq (S i) m)); [reflexivity|].
    apply filter_ext_in. intros j Hin. apply in_seq in Hin. symmetry. apply Hj. lia.
  - rewrite Hj by auto. specialize (IH (S n) ltac:(lia)). destruct (f n); [|exact IH].
    apply perm_trans with (n :: i :: filter f (seq (S n) m)); [constructor; exact IH|apply perm_swap].
Qed.
Lemma ent_set : forall a u i, (i < 64)%nat -> N.testbit u (N.of_nat i) = false ->
  Permutation (ent a (N.setbit u (N.of_nat i))) ((a + HSIZE * Z.of_nat i) :: ent a u).
Proof.
  intros a u i Hi H. unfold ent.
  change ((a + HSIZE * Z.of_nat i) :: map (fun j => a + HSIZE * Z.of_nat j) (filter (fun j' => N.testbit u (N.of_nat j')) (seq 0 64)))
    with (map (fun k => a + HSIZE * Z.of_nat k) (i :: filter (fun k' => N.testbit u (N.of_nat k')) (seq 0 64))).
  apply Permutation_map. apply filter_set; auto; [|intros j Hj|lia].
  - apply N.setbit_eq.
  - apply N.setbit_neq. lia.
Qed.
Lemma in_ents : forall cs h, In h (ents cs) <-> exists a u, In (a, u) cs /\ In h (ent a u).
Proof.
  intros cs h. unfold ents. rewrite in_concat. split.
  - intros (x & Hx & Hh). apply in_map_iff in Hx. destruct Hx as ([a u] & <- & Hin). eauto.
  - intros (a & u & Hin & Hh). exists (ent a u). split; auto. apply in_map_iff. exists (a, u). auto.
Qed.
Lemma ents_split : forall pre a u post, Permutation (ents (pre ++ (a, u) :: post)) (ent a u ++ ents (pre ++ post)).
Proof.
  intros pre a u post. unfold ents. rewrite !map_app, !concat_app. cbn [map concat fst snd].
  rewrite !app_assoc. apply Permutation_app_tail. apply Permutation_app_comm.
Qed.
Lemma ents_snoc0 : forall cs p, ents (cs ++ [(p, 0%N)]) = ents cs.
Proof. intros cs p. unfold ents. rewrite map_app, concat_app. apply app_nil_r. Qed.
Lemma ent0 : forall a, ent a 0 = [].
Proof. reflexivity. Qed.
Lemma zero_ones : 0%N <> ones64.
Proof. discriminate. Qed.
Lemma setbit_lt : forall u e, (u < 2 ^ 64)%N -> (e < 64)%N -> (N.setbit u e < 2 ^ 64)%N.
Proof.
  intros u e Hu He. unfold N.setbit. rewrite N.shiftl_1_l. destruct (N.eq_dec (N.lor u (2 ^ e)) 0) as [E|E]; [rewrite E; reflexivity|].
  apply N.log2_lt_pow2; [lia|]. rewrite N.log2_lor. apply N.max_lub_lt.
  - destruct (N.eq_dec u 0) as [->|]; [reflexivity|]. apply N.log2_lt_pow2; [lia|auto].
  - rewrite N.log2_pow2 by lia. auto.
Qed.
Lemma clear_set : forall u e, N.testbit u e = true -> N.setbit (N.clearbit u e) e = u.
Proof.
  intros u e H. apply N.bits_inj. intros k. rewrite N.setbit_eqb, N.clearbit_eqb. destruct (N.eqb_spec e k) as [->|]; cbn; [auto|].
  apply andb_true_r.
Qed.
Lemma ldiff_lt : forall u m n, (u < 2 ^ n)%N -> (N.ldiff u m < 2 ^ n)%N.
Proof.
  intros u m n H. apply N.le_lt_trans with (2 := H). apply N.ldiff_le. apply N.bits_inj. intros k.
  rewrite !N.ldiff_spec, N.bits_0. destruct (N.testbit u k); cbn; auto. apply andb_false_r.
Qed.
Lemma free_bit : forall u, (u < 2 ^ 64)%N -> u <> ones64 -> exists e, (e < 64)%nat /\ N.testbit u (N.of_nat e) = false /\
  log2_floor (N.lxor u ones64) = Ok (N.of_nat e).
Proof.
  intros u Hu Ho. set (v := N.lxor u ones64).
  assert (NZ : v <> 0%N) by (unfold v; rewrite N.lxor_eq_0_iff; auto).
  assert (HV : forall k, (64 <= k)%N -> N.testbit v k = false).
  { intros k Hk. unfold v, ones64. rewrite N.lxor_spec, N.ones_spec_high by auto. rewrite xorb_false_r.
    destruct (N.eq_dec u 0) as [->|]; [apply N.bits_0|]. apply N.bits_above_log2. apply N.lt_le_trans with (2 := Hk). apply N.log2_lt_pow2; [lia|auto]. }
  pose proof (N.bit_log2 v NZ) as B.
  assert (L : (N.log2 v < 64)%N).
  { destruct (N.ltb_spec (N.log2 v) 64); auto. rewrite HV in B by auto. discriminate B. }
  exists (N.to_nat (N.log2 v)). rewrite N2Nat.id. split; [lia|]. split.
  - unfold v in B at 1. rewrite N.lxor_spec in B. unfold ones64 in B at 1. rewrite N.ones_spec_low in B by auto. fold v in B.
    destruct (N.testbit u (N.log2 v)); [discriminate B|reflexivity].
  - apply log2_floor_ok; auto. apply N.log2_lt_pow2; lia.
Qed.

(** ** The invariant *)
Definition hregs (cs : list (Z * N)) : list region := map (fun c => (fst c, CSIZE)) cs.
(** ok says when a cache block other than the first may be empty *)
Definition hinvw (ok : Z -> Prop) (static : list region) (s0 : Z) (live : list Z) (rest : list region) (st : hst) : Prop :=
  exists u0 cs sep,
    linked (hblk st) 0 ((s0, u0) :: cs) 0 /\ length (hblk st) = S (length cs) /\ (S (length cs) <= CMAX)%nat /\
    In (hcur st) (s0 :: map fst cs) /\ (forall a u, In (a, u) ((s0, u0) :: cs) -> (u < 2 ^ 64)%N) /\
    (forall a u, In (a, u) cs -> u <> 0%N \/ ok a) /\
    Permutation (hregs cs ++ sregs sep ++ rest) (hreg (hheap st)) /\ regions_ok static (hreg (hheap st)) /\
    Permutation (ents ((s0, u0) :: cs) ++ sep) live.
Definition hinv := hinvw (fun _ => False).

Lemma hinvw_weak : forall (ok ok' : Z -> Prop) static s0 live rest st, (forall a, ok a -> ok' a) ->
  hinvw ok static s0 live rest st -> hinvw ok' static s0 live rest st.
Proof.
  intros ok ok' static s0 live rest st H (u0 & cs & sep & H1 & H2 & H3 & H4 & H5 & H6 & H7 & H8 & H9).
  exists u0, cs, sep. repeat (split; [assumption|]). split; [|auto]. intros a u Hin. destruct (H6 a u Hin); auto.
Qed.
Lemma hinv_perm : forall ok static s0 live live' rest rest' st, Permutation live live' -> Permutation rest rest' ->
  hinvw ok static s0 live rest st -> hinvw ok static s0 live' rest' st.
Proof.
  intros ok static s0 live live' rest rest' st P P' (u0 & cs & sep & H1 & H2 & H3 & H4 & H5 & H6 & H7 & H8 & H9).
  exists u0, cs, sep. repeat (split; [assumption|]). split; [|split; [auto|]].
  - apply perm_trans with (2 := H7). do 2 apply Permutation_app_head. apply Permutation_sym; auto.
  - apply perm_trans with (1 := H9). auto.
Qed.

(** the cache blocks are separate *)
Lemma apart_perm_head : forall static s0 l l', In (s0, CSIZE) static -> regions_ok static l -> Permutation l' l -> apart ((s0, CSIZE) :: l').
Proof.
  intros static s0 l l' Hs [A _] P. apply apart_app in A. destruct A as (A1 & A2 & A3). constructor.
  - intros b Hb. apply A3; auto. apply Permutation_in with (1 := P). auto.
  - apply apart_perm with (l := l); auto. apply Permutation_sym; auto.
Qed.
Lemma hregs_nodup : forall cs, apart (hregs cs) -> NoDup (map fst cs).
Proof.
  induction cs as [|[a u] cs IH]; intros H; cbn [map]; [constructor|]. inversion H as [|? ? H1 H2]; subst. constructor; auto.
  cbn [fst]. intros Hin. apply in_map_iff in Hin. destruct Hin as ([a' u'] & E & Hin). cbn in E. subst a'.
  specialize (H1 (a, CSIZE)). unfold separate in H1. cbn [fst snd] in H1. unfold hregs in H1.
  assert (K : In (a, CSIZE) (map (fun c : Z * N => (fst c, CSIZE)) cs)) by (apply in_map_iff; exists (a, u'); auto).
  specialize (H1 K). unfold CSIZE in H1. lia.
Qed.
Lemma in_fst : forall (cs : list (Z * N)) a, In a (map fst cs) -> exists u, In (a, u) cs.
Proof. intros cs a H. apply in_map_iff in H. destruct H as ([b u] & <- & H). eauto. Qed.
Lemma in_fst' : forall (cs : list (Z * N)) a u, In (a, u) cs -> In a (map fst cs).
Proof. intros cs a u H. apply in_map_iff. exists (a, u). auto. Qed.

(** ** mzd_t_malloc *)
(** taking an entry of the current cache block *)
Lemma take_wp : forall static s0 live rest st u (Q : Z * hst -> Prop), In (s0, CSIZE) static ->
  hinvw (fun a => a = hcur st) static s0 live rest st ->
  (exists p n, cget (hblk st) (hcur st) = Ok (mkcblk p n u)) -> u <> ones64 ->
  (forall p st', hinv static s0 (p :: live) rest st' -> Q (p, st')) ->
  wp (c <- cget (hblk st) (hcur st) ;;
      free_entry <- log2_floor (N.lxor (cused c) ones64) ;;
      l <- cset (hblk st) (hcur st) (mkcblk (cprev c) (cnext c) (N.lor (cused c) (N.shiftl 1 free_entry))) ;;
      Ok (hcur st + HSIZE * Z.of_N free_entry, mkhst l (hcur st) (hheap st))) Q.
Proof.
  intros static s0 live rest st u Q Hs (u0 & cs & sep & H1 & H2 & H3 & H4 & H5 & H6 & H7 & H8 & H9) (p & n & EC) NO HQ.
  pose proof (apart_perm_head static s0 _ _ Hs H8 H7) as AP.
  assert (ND : NoDup (map fst ((s0, u0) :: cs))).
  { apply hregs_nodup. change (hregs ((s0, u0) :: cs)) with ((s0, CSIZE) :: hregs cs).
    rewrite app_comm_cons in AP. apply apart_app in AP. tauto. }
  set (a := hcur st) in *.
  assert (Hin : In a (map fst ((s0, u0) :: cs))) by exact H4.
  apply in_fst in Hin. destruct Hin as [u' Hin].
  assert (u' = u).
  { destruct (linked_in _ _ _ _ _ _ H1 Hin) as (p' & n' & E'). rewrite EC in E'. injection E'. auto. }
  subst u'. rewrite EC. cbn [bind cused cprev cnext].
  destruct (free_bit u (H5 _ _ Hin) NO) as (e & He & Hb & ->). cbn [bind].
  destruct (cset_ok (hblk st) a _ (mkcblk p n (N.lor u (N.shiftl 1 (N.of_nat e)))) EC) as (l' & -> & EL & EG). cbn [bind]. apply wp_ok.
  fold (N.setbit u (N.of_nat e)) in EG. rewrite nat_N_Z. apply HQ.
  destruct (in_split _ _ Hin) as (pre & post & ES).
  (* the new list *)
  set (v := N.setbit u (N.of_nat e)) in *.
  assert (EN : exists u0' cs', (s0, u0') :: cs' = pre ++ (a, v) :: post /\ map fst cs' = map fst cs /\ hregs cs' = hregs cs /\
     (forall b w, In (b, w) cs' -> b = a /\ w = v \/ In (b, w) cs)).
  { destruct pre as [|[x y] pre]; cbn [app] in ES; injection ES; intros; subst.
    - exists v, post. auto.
    - exists y, (pre ++ (a, v) :: post). cbn [app]. split; [auto|]. unfold hregs. rewrite !map_app. cbn [map fst]. split; auto. split; auto.
      intros b w K. apply in_app_or in K. destruct K as [K|[K|K]]; [right; apply in_or_app; auto|injection K; auto|right; apply in_or_app; right; right; auto]. }
  destruct EN as (u0' & cs' & E1 & E2 & E3 & E4). exists u0', cs', sep. cbn [hblk hcur hheap].
  assert (LC : length cs' = length cs) by (rewrite <- (map_length fst cs'), E2, map_length; auto).
  split; [|split; [|split; [|split; [|split; [|split; [|split; [|split]]]]]]].
  - rewrite E1. rewrite ES in H1. rewrite ES in ND. rewrite map_app in ND. cbn [map fst] in ND.
    assert (NI : ~ In a (map fst pre ++ map fst post)) by (apply NoDup_remove_2; exact ND).
    apply linked_app in H1. apply linked_app. destruct H1 as [L1 [L2 L3]]. cbn [map fst hd linked] in *. split; [|split].
    + apply linked_frame with (2 := L1). intros b Hib. rewrite EG. destruct (Z.eqb_spec b a) as [->|]; auto. destruct NI. apply in_or_app; auto.
    + rewrite EG, Z.eqb_refl. rewrite EC in L2. injection L2 as -> ->. reflexivity.
    + apply linked_frame with (2 := L3). intros b Hib. rewrite EG. destruct (Z.eqb_spec b a) as [->|]; auto. destruct NI. apply in_or_app; auto.
  - lia.
  - lia.
  - rewrite E2. exact H4.
  - rewrite E1. intros b w K. apply in_app_or in K. destruct K as [K|[K|K]].
    + apply H5 with b. rewrite ES. apply in_or_app; auto.
    + injection K as <- <-. apply setbit_lt; [|lia]. apply H5 with a. auto.
    + apply H5 with b. rewrite ES. apply in_or_app; right; right; auto.
  - intros b w K. left. intros ->. destruct (E4 _ _ K) as [[-> E]|K'].
    + apply (f_equal (fun x => N.testbit x (N.of_nat e))) in E. unfold v in E. rewrite N.setbit_eq, N.bits_0 in E. discriminate E.
    + destruct (H6 _ _ K') as [|E]; [congruence|]. fold a in E. subst b. 
      (* the block a is empty before; but then the list has it once *)
      assert (K2 : In (a, 0%N) ((s0, u0') :: cs')) by (right; exact K).
      rewrite E1 in K2. rewrite ES in ND. rewrite map_app in ND. cbn [map fst] in ND.
      assert (NI : ~ In a (map fst pre ++ map fst post)) by (apply NoDup_remove_2; exact ND).
      apply in_app_or in K2. destruct K2 as [K2|[K2|K2]].
      * apply NI. apply in_or_app. left. apply in_fst' with (1 := K2).
      * injection K2 as E. apply (f_equal (fun x => N.testbit x (N.of_nat e))) in E. unfold v in E. rewrite N.setbit_eq, N.bits_0 in E. discriminate E.
      * apply NI. apply in_or_app. right. apply in_fst' with (1 := K2).
  - rewrite E3. exact H7.
  - exact H8.
  - rewrite E1. rewrite ES in H9.
    apply perm_trans with ((a + HSIZE * Z.of_nat e) :: (ents (pre ++ (a, u) :: post) ++ sep)); [|constructor; exact H9].
    rewrite app_comm_cons. apply Permutation_app_tail.
    apply perm_trans with (1 := ents_split _ _ _ _). apply perm_trans with ((a + HSIZE * Z.of_nat e) :: ent a u ++ ents (pre ++ post)).
    + rewrite app_comm_cons. apply Permutation_app_tail. apply ent_set; auto.
    + constructor. apply Permutation_sym, ents_split.
Qed.

Lemma walk_wp : forall l todo prev fuel cur i (Q : Z * Z * nat -> Prop), linked l prev todo 0 -> (length todo < fuel)%nat ->
  (forall a, In a (map fst todo) -> a <> 0) ->
  (forall a u cur' i', In (a, u) todo -> u <> ones64 -> Q (cur', a, i')) ->
  (Q (last (map fst todo) cur, 0, (i + length todo)%nat)) ->
  wp (walk_full fuel l cur (hd 0 (map fst todo)) i) Q.
Proof.
  intros l todo. induction todo as [|[a u] todo IH]; intros prev fuel cur i Q HL HF HN HA HB; (destruct fuel as [|fuel]; [lia|]); cbn [walk_full map hd fst].
  - cbn [Z.eqb]. apply wp_ok. cbn [map last length] in HB. rewrite Nat.add_0_r in HB. exact HB.
  - destruct (Z.eqb_spec a 0) as [E|_]; [destruct (HN a); [left; auto|auto]|]. destruct HL as [E HL]. rewrite E. cbn [bind cused cnext].
    destruct (N.eqb_spec u ones64) as [->|NE].
    + apply IH with (prev := a); auto.
      * cbn [length] in HF. lia.
      * intros b Hb. apply HN. right. auto.
      * intros b w cur' i' Hin. apply HA. right. auto.
      * cbn [map fst] in HB. rewrite last_cons' in HB. cbn [length] in HB. replace (S i + length todo)%nat with (i + S (length todo))%nat by lia. exact HB.
    + apply wp_ok. apply HA with u; auto. left. auto.
Qed.

#[local] Strategy opaque [ent ents log2_floor ones64 N.pow N.setbit mm_malloc linked].
Lemma mzd_t_malloc_wp : forall static al s0 live rest st (Q : Z * hst -> Prop), In (s0, CSIZE) static -> alloc_ok static al ->
  hinv static s0 live rest st ->
  (forall p st', hinv static s0 (p :: live) rest st' -> Q (p, st')) -> wp (mzd_t_malloc al s0 st) Q.
Proof.
  intros static al s0 live rest st Q Hs HA HI HQ. pose proof HI as (u0 & cs & sep & H1 & H2 & H3 & H4 & H5 & H6 & H7 & H8 & H9).
  unfold mzd_t_malloc.
  assert (Hin : In (hcur st) (map fst ((s0, u0) :: cs))) by exact H4.
  apply in_fst in Hin. destruct Hin as [u Hin]. destruct (linked_in _ _ _ _ _ _ H1 Hin) as (pp & nn & EC).
  rewrite EC. cbn [bind cused]. apply wp_bind.
  assert (HZ : forall a, In a (map fst ((s0, u0) :: cs)) -> a <> 0).
  { intros a [E|Hina]; cbn [fst] in *.
    - subst a. assert (K : 0 < fst (s0, CSIZE)) by (apply H8, in_or_app; auto). cbn [fst] in K. lia.
    - apply in_fst in Hina. destruct Hina as [w Hina]. enough (K : 0 < fst (a, CSIZE)) by (cbn [fst] in K; lia).
      apply H8. apply in_or_app. right. apply Permutation_in with (1 := H7). apply in_or_app. left.
      unfold hregs. apply in_map_iff. exists (a, w). auto. }
  destruct (N.eqb_spec u ones64) as [Eu|NE].
  2: { apply wp_ok. cbn [Z.eqb]. apply take_wp with (static := static) (s0 := s0) (live := live) (rest := rest) (u := u); auto; [|eauto].
       apply hinvw_weak with (2 := HI). intros ? []. }
  apply wp_bind. change s0 with (hd 0 (map fst ((s0, u0) :: cs))) at 1. apply walk_wp with (prev := 0); auto.
  - cbn [length]. lia.
  - intros a w cur' i' Hin' NE. destruct (Z.eqb_spec a 0) as [E0|_]; [destruct (HZ a); auto; apply in_fst' with (1 := Hin')|].
    apply wp_ok. cbn [Z.eqb].
    apply take_wp with (st := mkhst (hblk st) a (hheap st)) (static := static) (s0 := s0) (live := live) (rest := rest) (u := w); auto.
    + exists u0, cs, sep. cbn [hblk hcur hheap]. repeat (split; [assumption|]). split; [apply in_fst' with (1 := Hin')|].
      split; [assumption|]. split; [|auto]. intros b x Hb. destruct (H6 b x Hb) as [|[]]; auto.
    + cbn [hblk hcur]. apply linked_in with (1 := H1) (2 := Hin').
  - cbn [Z.eqb]. set (cur := last (map fst ((s0, u0) :: cs)) (hcur st)).
    assert (Hc : exists pre w, (s0, u0) :: cs = pre ++ [(cur, w)]).
    { destruct (exists_last (l := (s0, u0) :: cs)) as (pre & [a w] & E); [discriminate|]. exists pre, w. rewrite E. unfold cur. rewrite E.
      rewrite map_app. cbn [map fst]. rewrite last_last. reflexivity. }
    destruct Hc as (pre & w & ES).
    destruct (Nat.ltb_spec (0 + length ((s0, u0) :: cs)) CMAX) as [Hlt|Hge].
    + destruct (mm_malloc al CSIZE (hheap st)) as [p h] eqn:EM.
      destruct (mm_malloc_ok static al CSIZE (hheap st) p h HA H8 ltac:(unfold CSIZE; lia) EM) as (Hp & Eh & RO).
      assert (Lc : cget (hblk st) cur = Ok (mkcblk (last (map fst pre) 0) 0 w) /\ linked (hblk st) 0 pre cur).
      { rewrite ES in H1. apply linked_app in H1. cbn [linked map hd fst] in H1. tauto. }
      destruct Lc as [Lc Lp]. rewrite Lc. cbn [bind cprev cused].
      destruct (cset_ok (hblk st) cur _ (mkcblk (last (map fst pre) 0) p w) Lc) as (l' & -> & EL & EG). cbn [bind]. apply wp_ok. cbn [Z.eqb].
      assert (FR : forall a, In a (map fst ((s0, u0) :: cs)) -> a <> p).
      { intros a Hina ->. pose proof (apart_perm_head static s0 (hreg h) (hreg h) Hs RO (Permutation_refl _)) as AP. rewrite Eh in AP.
        inversion AP as [|? ? A1 A2]; subst. destruct Hina as [E|Hina].
        - cbn [fst] in E. subst p. specialize (A1 (s0, CSIZE) (or_introl eq_refl)). unfold separate in A1. cbn [fst snd] in A1. unfold CSIZE in A1. lia.
        - inversion A2 as [|? ? A3 A4]; subst. apply in_fst in Hina. destruct Hina as [x Hina]. specialize (A3 (p, CSIZE)). unfold separate in A3. cbn [fst snd] in A3.
          assert (K : In (p, CSIZE) (hreg (hheap st))). { apply Permutation_in with (1 := H7). apply in_or_app. left. unfold hregs. apply in_map_iff. exists (p, x). auto. }
          specialize (A3 K). unfold CSIZE in A3. lia. }
      assert (ND : NoDup (map fst ((s0, u0) :: cs))).
      { apply hregs_nodup. change (hregs ((s0, u0) :: cs)) with ((s0, CSIZE) :: hregs cs).
        pose proof (apart_perm_head static s0 _ _ Hs H8 H7) as AP. rewrite app_comm_cons in AP. apply apart_app in AP. tauto. }
      apply take_wp with (st := mkhst ((p, mkcblk cur 0 0) :: l') p h) (static := static) (s0 := s0) (live := live) (rest := rest) (u := 0%N); auto.
      * exists u0, (cs ++ [(p, 0%N)]), sep. cbn [hblk hcur hheap].
        split; [|split; [|split; [|split; [|split; [|split; [|split; [|split]]]]]]].
        -- rewrite app_comm_cons, ES. apply linked_app. cbn [map fst hd linked]. rewrite map_app. cbn [map fst]. rewrite last_last.
           split; [|split; [cbn [cget]; rewrite Z.eqb_refl; reflexivity|exact I]].
           rewrite ES in ND. rewrite map_app in ND. cbn [map fst] in ND.
           apply linked_app. cbn [linked map fst hd]. split; [|split; auto].
           ++ apply linked_frame with (2 := Lp). intros b Hb. cbn [cget].
              destruct (Z.eqb_spec p b) as [E|_]; [destruct (FR b); auto; rewrite ES, map_app; apply in_or_app; auto|].
              rewrite EG. destruct (Z.eqb_spec b cur) as [->|]; auto. apply NoDup_remove_2 in ND. destruct ND. apply in_or_app; auto.
           ++ cbn [cget]. destruct (Z.eqb_spec p cur) as [E|_]; [destruct (FR cur); auto; rewrite ES, map_app; apply in_or_app; right; left; auto|].
              rewrite EG, Z.eqb_refl. reflexivity.
        -- cbn [length]. rewrite EL, H2, app_length. cbn. lia.
        -- rewrite app_length. cbn [length] in *. unfold CMAX in *. lia.
        -- right. rewrite map_app. apply in_or_app. right. left. auto.
        -- intros a x Hin'. rewrite app_comm_cons in Hin'. apply in_app_or in Hin'. destruct Hin' as [Hin'|[E|[]]]; [eapply H5; eauto|injection E as _ <-; reflexivity].
        -- intros a x Hin'. apply in_app_or in Hin'. destruct Hin' as [Hin'|[E|[]]]; [destruct (H6 a x Hin') as [|[]]; auto|injection E as <- _; auto].
        -- rewrite Eh. unfold hregs. rewrite map_app. cbn [map fst]. rewrite <- app_assoc. cbn [app].
           apply perm_trans with ((p, CSIZE) :: hregs cs ++ sregs sep ++ rest); [apply Permutation_sym, Permutation_middle|constructor; auto].
        -- exact RO.
        -- rewrite app_comm_cons, ents_snoc0. exact H9.
      * cbn [hblk hcur cget]. rewrite Z.eqb_refl. eauto.
      * exact zero_ones.
    + destruct (mm_malloc al HSIZE (hheap st)) as [p h] eqn:EM.
      destruct (mm_malloc_ok static al HSIZE (hheap st) p h HA H8 ltac:(unfold HSIZE; lia) EM) as (Hp & Eh & RO).
      apply wp_ok. destruct (Z.eqb_spec p 0); [lia|]. apply HQ. exists u0, cs, (p :: sep). cbn [hblk hcur hheap].
      split; [assumption|]. split; [assumption|]. split; [assumption|]. split.
      { change (In cur (map fst ((s0, u0) :: cs))). rewrite ES, map_app. apply in_or_app. right. left. auto. }
      split; [assumption|]. split; [assumption|]. split; [|split; [exact RO|]].
      * rewrite Eh. cbn [sregs map app].
        apply perm_trans with ((p, HSIZE) :: hregs cs ++ sregs sep ++ rest); [apply Permutation_sym, Permutation_middle|constructor; auto].
      * apply perm_trans with (p :: (ents ((s0, u0) :: cs) ++ sep)); [apply Permutation_sym, Permutation_middle|constructor; auto].
Qed.

(** ** mzd_t_free *)
(** blocks that do not have M are passed by *)
Lemma free_skip : forall s0 M st pre prev post fuel, linked (hblk st) prev (pre ++ post) 0 ->
  (forall a, In a (map fst pre) -> a <> 0 /\ ~ (a <= M < a + HSIZE * 64)) ->
  free_walk (length pre + fuel) s0 M (hd 0 (map fst (pre ++ post))) st = free_walk fuel s0 M (hd 0 (map fst post)) st.
Proof.
  intros s0 M st pre. induction pre as [|[a u] pre IH]; intros prev post fuel HL HN; [reflexivity|].
  cbn [length Nat.add free_walk app map hd fst]. destruct HL as [E HL]. cbn [app] in HL.
  destruct (HN a ltac:(left; auto)) as [N1 N2]. destruct (Z.eqb_spec a 0); [congruence|]. cbn [app] in E. rewrite E. cbn [bind cnext].
  replace ((0 <=? (M - a) / HSIZE) && ((M - a) / HSIZE <? 64))%bool with false.
  - apply IH with (prev := a); auto. intros b Hb. apply HN. right. auto.
  - symmetry. apply andb_false_iff. rewrite Z.leb_gt, Z.ltb_ge. unfold HSIZE in *.
    assert (K : M < a \/ a + 64 * 64 <= M) by lia. destruct K as [K|K]; [left; apply Z.div_lt_upper_bound; lia|right; apply Z.div_le_lower_bound; lia].
Qed.
#[local] Strategy transparent [linked].
Lemma mzd_t_free_wp : forall static s0 M live rest st (Q : hst -> Prop), In (s0, CSIZE) static ->
  hinv static s0 (M :: live) rest st ->
  (forall st', hinv static s0 live rest st' -> Q st') -> wp (mzd_t_free s0 M st) Q.
Proof.
  intros static s0 M live rest st Q Hs (u0 & cs & sep & H1 & H2 & H3 & H4 & H5 & H6 & H7 & H8 & H9) HQ.
  pose proof (apart_perm_head static s0 _ _ Hs H8 H7) as AP.
  assert (AH : apart (hregs ((s0, u0) :: cs))).
  { change (hregs ((s0, u0) :: cs)) with ((s0, CSIZE) :: hregs cs). pose proof AP as AP'. rewrite app_comm_cons in AP'. apply apart_app in AP'. tauto. }
  assert (ND : NoDup (map fst ((s0, u0) :: cs))) by (apply hregs_nodup; auto).
  assert (HZ : forall a, In a (map fst ((s0, u0) :: cs)) -> a <> 0).
  { intros a [E|Hina]; cbn [fst] in *.
    - subst a. assert (K : 0 < fst (s0, CSIZE)) by (apply H8, in_or_app; auto). cbn [fst] in K. lia.
    - apply in_fst in Hina. destruct Hina as [w Hina]. enough (K : 0 < fst (a, CSIZE)) by (cbn [fst] in K; lia).
      apply H8. apply in_or_app. right. apply Permutation_in with (1 := H7). apply in_or_app. left.
      unfold hregs. apply in_map_iff. exists (a, w). auto. }
  assert (SEP : forall a, In a (map fst ((s0, u0) :: cs)) -> forall h, In h sep -> separate (a, CSIZE) (h, HSIZE)).
  { intros a Hina h Hh. change ((s0, CSIZE) :: hregs cs ++ sregs sep ++ rest) with (hregs ((s0, u0) :: cs) ++ sregs sep ++ rest) in AP.
    apply apart_app in AP. destruct AP as (_ & _ & A3). apply A3.
    - apply in_fst in Hina. destruct Hina as [w Hina]. unfold hregs. apply in_map_iff. exists (a, w). auto.
    - apply in_or_app. left. unfold sregs. apply in_map_iff. eauto. }
  assert (HM : In M (ents ((s0, u0) :: cs) ++ sep)) by (apply Permutation_in with (1 := Permutation_sym H9); left; auto).
  unfold mzd_t_free. rewrite H2. apply in_app_or in HM. destruct HM as [HM|HM].
  - apply in_ents in HM. destruct HM as (a & u & Hin & HM). apply ent_in in HM. destruct HM as (i & Hi & Hb & EM).
    destruct (in_split _ _ Hin) as (pre & post & ES).
    assert (NI : ~ In a (map fst pre ++ map fst post)).
    { apply NoDup_remove_2. rewrite ES, map_app in ND. exact ND. }
    assert (EW : free_walk (S (S (length cs))) s0 M s0 st = free_walk (S (S (length post))) s0 M a st).
    { assert (LL : S (length cs) = (length pre + S (length post))%nat).
      { transitivity (length ((s0, u0) :: cs)); [reflexivity|]. rewrite ES, app_length. reflexivity. }
      replace (S (S (length cs))) with (length pre + S (S (length post)))%nat by lia.
      replace s0 with (hd 0 (map fst (pre ++ (a, u) :: post))) at 2 by (rewrite <- ES; reflexivity).
      rewrite free_skip with (prev := 0); [reflexivity|rewrite <- ES; auto|].
      intros b Hb'. split.
      - apply HZ. rewrite ES, map_app. apply in_or_app; auto.
      - assert (SB : separate (b, CSIZE) (a, CSIZE)).
        { rewrite ES in AH. unfold hregs in AH. rewrite map_app in AH. apply apart_app in AH. destruct AH as (_ & _ & A3). apply A3.
          - apply in_fst in Hb'. destruct Hb' as [w Hb']. apply in_map_iff. exists (b, w). auto.
          - left. auto. }
        unfold separate in SB. cbn [fst snd] in SB. unfold CSIZE, HSIZE in *. lia. }
    rewrite EW. clear EW. cbn [free_walk]. destruct (Z.eqb_spec a 0) as [E0|_]; [destruct (HZ a); auto; apply in_fst' with (1 := Hin)|].
    pose proof H1 as H1'. rewrite ES in H1'. apply linked_app in H1'. destruct H1' as (L1 & L2 & L3). cbn [map fst hd] in L1.
    rewrite L2. cbn [bind cused cprev cnext].
    assert (EE : (M - a) / HSIZE = Z.of_nat i).
    { rewrite EM. replace (a + HSIZE * Z.of_nat i - a) with (Z.of_nat i * HSIZE) by ring. apply Z.div_mul. discriminate. }
    rewrite EE. replace ((0 <=? Z.of_nat i) && (Z.of_nat i <? 64))%bool with true by (symmetry; apply andb_true_iff; rewrite Z.leb_le, Z.ltb_lt; lia).
    replace (Z.to_N (Z.of_nat i)) with (N.of_nat i) by lia.
    fold (N.clearbit u (N.of_nat i)). set (v := N.clearbit u (N.of_nat i)).
    assert (Hv : (v < 2 ^ 64)%N) by (apply ldiff_lt; eapply H5; eauto).
    assert (Ev : N.setbit v (N.of_nat i) = u) by (apply clear_set; auto).
    assert (Fv : N.testbit v (N.of_nat i) = false) by apply N.clearbit_eq.
    clearbody v.
    destruct (cset_ok (hblk st) a _ (mkcblk (last (map fst pre) 0) (hd 0 (map fst post)) v) L2) as (l & -> & EL & EG). cbn [bind].
    (* the headers that are left *)
    assert (PL : Permutation ((ent a v ++ ents (pre ++ post)) ++ sep) live).
    { apply Permutation_cons_inv with (a := M). apply perm_trans with (2 := H9). rewrite ES. rewrite app_comm_cons.
      apply Permutation_app_tail. apply Permutation_sym. apply perm_trans with (1 := ents_split _ _ _ _).
      rewrite app_comm_cons. apply Permutation_app_tail. rewrite EM. rewrite <- Ev at 1. apply ent_set; auto. }
    (* the list with the changed block *)
    assert (LK : linked l 0 (pre ++ (a, v) :: post) 0).
    { apply linked_app. cbn [map fst hd linked]. split; [|split].
      - apply linked_frame with (2 := L1). intros b Hib. rewrite EG. destruct (Z.eqb_spec b a) as [->|]; auto. destruct NI. apply in_or_app; auto.
      - rewrite EG, Z.eqb_refl. reflexivity.
      - apply linked_frame with (2 := L3). intros b Hib. rewrite EG. destruct (Z.eqb_spec b a) as [->|]; auto. destruct NI. apply in_or_app; auto. }
    assert (KEEP : forall cur, In cur (map fst ((s0, u0) :: cs)) -> (v <> 0%N \/ a = s0) -> hinv static s0 live rest (mkhst l cur (hheap st))).
    { intros cur Hcur HK.
      assert (EN : exists u0' cs', (s0, u0') :: cs' = pre ++ (a, v) :: post /\ map fst cs' = map fst cs /\ hregs cs' = hregs cs /\
         (forall b w, In (b, w) cs' -> b = a /\ w = v /\ v <> 0%N \/ In (b, w) cs)).
      { destruct pre as [|[x y] pre]; cbn [app] in ES; injection ES; intros; subst.
        - exists v, post. auto.
        - exists y, (pre ++ (a, v) :: post). cbn [app]. split; [auto|]. unfold hregs. rewrite !map_app. cbn [map fst]. split; auto. split; auto.
          intros b w K. apply in_app_or in K. destruct K as [K|[K|K]]; [right; apply in_or_app; auto| |right; apply in_or_app; right; right; auto].
          injection K as <- <-. left. split; auto. split; auto. destruct HK as [|E]; auto. destruct NI. left. auto. }
      destruct EN as (u0' & cs' & E1 & E2 & E3 & E4). exists u0', cs', sep. cbn [hblk hcur hheap].
      assert (LC : length cs' = length cs) by (rewrite <- (map_length fst cs'), E2, map_length; auto).
      split; [|split; [|split; [|split; [|split; [|split; [|split; [|split]]]]]]].
      - rewrite E1. exact LK.
      - lia.
      - lia.
      - rewrite E2. exact Hcur.
      - rewrite E1. intros b w K. apply in_app_or in K. destruct K as [K|[K|K]].
        + apply H5 with b. rewrite ES. apply in_or_app; auto.
        + injection K as <- <-. exact Hv.
        + apply H5 with b. rewrite ES. apply in_or_app; right; right; auto.
      - intros b w K. left. destruct (E4 _ _ K) as [(-> & -> & E)|K']; auto. destruct (H6 _ _ K') as [|[]]; auto.
      - rewrite E3. exact H7.
      - exact H8.
      - rewrite E1. apply perm_trans with (2 := PL). apply Permutation_app_tail. apply ents_split. }
    destruct (N.eqb_spec v 0) as [V0|V0].
    2: { apply wp_ok. apply HQ. apply KEEP; auto. }
    destruct (Z.eqb_spec a s0) as [E0|NE0].
    { apply wp_ok. apply HQ. apply KEEP; auto. apply in_fst' with (1 := Hin). }
    (* an empty cache block is removed *)
    destruct pre as [|c0 pre0]; [cbn [app] in ES; injection ES; intros; congruence|].
    destruct (exists_last (l := c0 :: pre0)) as (pre' & [b ub] & EP); [discriminate|]. rewrite EP in *. clear c0 pre0 EP.
    assert (EPR : last (map fst (pre' ++ [(b, ub)])) 0 = b) by (rewrite map_app; apply last_last). rewrite EPR in *.
    apply linked_app in L1. cbn [linked map fst hd] in L1. destruct L1 as (L1 & LB & _). rewrite !map_app in NI. cbn [map fst] in NI.
    assert (NB : b <> a) by (intros ->; apply NI; apply in_or_app; left; apply in_or_app; right; left; auto).
    assert (NDB : NoDup ((map fst pre' ++ [b]) ++ a :: map fst post)) by (rewrite ES, !map_app in ND; exact ND).
    assert (NPB : ~ In b (map fst pre' ++ map fst post)).
    { rewrite <- app_assoc in NDB. cbn [app] in NDB. apply NoDup_remove_2 in NDB. intros K. apply NDB. apply in_app_or in K. apply in_or_app.
      destruct K; [auto|right; right; auto]. }
    assert (GB : cget l b = Ok (mkcblk (last (map fst pre') 0) a ub)) by (rewrite EG; destruct (Z.eqb_spec b a); congruence).
    cbn [cprev]. rewrite GB. cbn [bind cprev cused].
    destruct (cset_ok l b _ (mkcblk (last (map fst pre') 0) (hd 0 (map fst post)) ub) GB) as (l2 & -> & EL2 & EG2). cbn [bind].
    assert (GA2 : exists x, cget l2 a = Ok x) by (rewrite EG2, EG, Z.eqb_refl; destruct (Z.eqb_spec a b); eauto).
    set (cur := if a =? hcur st then b else hcur st).
    assert (Hcur : In cur (map fst ((pre' ++ [(b, ub)]) ++ post))).
    { unfold cur. rewrite !map_app. cbn [map fst]. destruct (Z.eqb_spec a (hcur st)) as [E|NE].
      - apply in_or_app. left. apply in_or_app. right. left. auto.
      - assert (K : In (hcur st) (map fst ((s0, u0) :: cs))) by exact H4. rewrite ES, !map_app in K. cbn [map fst] in K.
        apply in_app_or in K. apply in_or_app. destruct K as [K|[K|K]]; auto; congruence. }
    (* the end: the block is given back *)
    assert (FIN : forall l3, length l3 = length (hblk st) -> (exists x, cget l3 a = Ok x) -> linked l3 0 ((pre' ++ [(b, ub)]) ++ post) 0 ->
      wp (h <- mm_free a (hheap st) ;; Ok (mkhst (cremove l3 a) cur h)) Q).
    { intros l3 LE (x & GA) LK3. apply wp_bind.
      apply wp_mm_free with (static := static) (s := CSIZE) (rest := hregs (tl ((pre' ++ [(b, ub)]) ++ post)) ++ sregs sep ++ rest); auto.
      - apply perm_trans with (2 := H7). rewrite app_comm_cons. apply Permutation_app_tail.
        destruct pre' as [|[x0 y0] pre']; cbn [app tl] in *.
        + injection ES as _ _ EC. rewrite EC. reflexivity.
        + injection ES as _ _ EC. rewrite EC. unfold hregs. rewrite <- !app_assoc. cbn [app]. rewrite !map_app. cbn [map fst].
          apply perm_trans with (map (fun c : Z * N => (fst c, CSIZE)) pre' ++ (a, CSIZE) :: (b, CSIZE) :: map (fun c : Z * N => (fst c, CSIZE)) post).
          * apply Permutation_middle.
          * apply Permutation_app_head. apply perm_swap.
      - intros h' P' RO'. apply wp_ok. apply HQ.
        destruct (cremove_ok l3 a x GA) as [LR GR].
        assert (EH : exists u0' cs', (pre' ++ [(b, ub)]) ++ post = (s0, u0') :: cs' /\ forall c, In c cs' -> In c cs).
        { destruct pre' as [|[x0 y0] pre']; cbn [app] in *; injection ES; intros EC ? ?; subst x0 y0 || subst b ub.
          - exists u0, post. split; auto. intros c Hc. rewrite EC. right. auto.
          - exists u0, ((pre' ++ [(b, ub)]) ++ post). split; auto. intros c Hc. rewrite EC. apply in_app_or in Hc. apply in_or_app. destruct Hc; [auto|right; right; auto]. }
        destruct EH as (u0' & cs' & EH & SUB). rewrite EH in *. cbn [tl] in *. exists u0', cs', sep. cbn [hblk hcur hheap].
        assert (LC : S (length cs') = length cs).
        { apply (f_equal (@length _)) in EH. apply (f_equal (@length _)) in ES. rewrite !app_length in *. cbn [length] in *. lia. }
        split; [|split; [|split; [|split; [|split; [|split; [|split; [|split]]]]]]].
        + rewrite <- EH in *. apply linked_frame with (2 := LK3). intros c Hc. apply GR. intros ->. apply NI.
          rewrite !map_app in Hc. exact Hc.
        + lia.
        + lia.
        + exact Hcur.
        + intros c w [E|Hc]; [|apply H5 with c; right; auto]. injection E as <- <-.
          assert (K : In (s0, u0') ((pre' ++ [(b, ub)]) ++ (a, u) :: post)).
          { assert (K : In (s0, u0') ((pre' ++ [(b, ub)]) ++ post)) by (rewrite EH; left; auto).
            apply in_app_or in K. apply in_or_app. destruct K; [auto|right; right; auto]. }
          rewrite <- ES in K. eapply H5; eauto.
        + intros c w Hc. apply H6 with c. auto.
        + exact P'.
        + exact RO'.
        + rewrite V0, ent0 in PL. exact PL. }
    destruct post as [|[n un] post].
    + cbn [map fst hd] in *. cbn [Z.eqb bind]. apply FIN; auto; [lia|]. rewrite app_nil_r. apply linked_app. cbn [linked map fst hd]. split; [|split; auto].
      * apply linked_frame with (2 := L1). intros c Hc. rewrite EG2, EG.
        destruct (Z.eqb_spec c b) as [->|]; [destruct NPB; apply in_or_app; auto|].
        destruct (Z.eqb_spec c a) as [->|]; [destruct NI; apply in_or_app; left; apply in_or_app; auto|]. reflexivity.
      * rewrite EG2, Z.eqb_refl. reflexivity.
    + cbn [map fst hd] in *. destruct L3 as [LN L3].
      assert (NZ : n <> 0) by (apply HZ; change (In n (map fst ((s0, u0) :: cs))); rewrite ES, map_app; apply in_or_app; right; right; left; auto).
      destruct (Z.eqb_spec n 0); [congruence|].
      assert (Nnb : n <> b) by (intros ->; apply NPB; apply in_or_app; right; left; auto).
      assert (Nna : n <> a) by (intros ->; apply NI; apply in_or_app; right; left; auto).
      assert (GN : cget l2 n = Ok (mkcblk a (hd 0 (map fst post)) un)).
      { rewrite EG2, EG. destruct (Z.eqb_spec n b); [congruence|]. destruct (Z.eqb_spec n a); [congruence|]. exact LN. }
      rewrite GN. cbn [bind cnext cused].
      destruct (cset_ok l2 n _ (mkcblk b (hd 0 (map fst post)) un) GN) as (l3 & -> & EL3 & EG3). cbn [bind].
      assert (NDN : ~ In n (map fst post)).
      { rewrite <- app_assoc in NDB. cbn [app] in NDB. apply NoDup_remove_1 in NDB. apply (NoDup_remove_1 (map fst pre') (n :: map fst post) a) in NDB.
        apply NoDup_remove_2 in NDB. intros K. apply NDB. apply in_or_app. auto. }
      assert (NPN : ~ In n (map fst pre')).
      { intros K. rewrite <- app_assoc in NDB. cbn [app] in NDB. apply NoDup_remove_1 in NDB. apply (NoDup_remove_1 (map fst pre') (n :: map fst post) a) in NDB.
        apply NoDup_remove_2 in NDB. apply NDB. apply in_or_app. auto. }
      apply FIN; [lia| |].
      * destruct GA2 as [x GA2]. rewrite EG3. destruct (Z.eqb_spec a n); [congruence|]. eauto.
      * apply linked_app. split; [apply linked_app; cbn [linked map fst hd]; split; [|split; auto]|rewrite EPR; cbn [linked]; split].
        -- apply linked_frame with (2 := L1). intros c Hc. rewrite EG3, EG2, EG.
           destruct (Z.eqb_spec c n) as [->|]; [destruct NPN; auto|].
           destruct (Z.eqb_spec c b) as [->|]; [destruct NPB; apply in_or_app; auto|].
           destruct (Z.eqb_spec c a) as [->|]; [destruct NI; apply in_or_app; left; apply in_or_app; auto|]. reflexivity.
        -- rewrite EG3. destruct (Z.eqb_spec b n); [congruence|]. rewrite EG2, Z.eqb_refl. reflexivity.
        -- rewrite EG3, Z.eqb_refl. reflexivity.
        -- apply linked_frame with (2 := L3). intros c Hc. rewrite EG3, EG2, EG.
           destruct (Z.eqb_spec c n) as [->|]; [destruct NDN; auto|].
           destruct (Z.eqb_spec c b) as [->|]; [destruct NPB; apply in_or_app; right; right; auto|].
           destruct (Z.eqb_spec c a) as [->|]; [destruct NI; apply in_or_app; right; right; auto|]. reflexivity.
  - (* a header of its own *)
    destruct (in_split _ _ HM) as (sa & sb & ES).
    assert (EW : free_walk (S (S (length cs))) s0 M s0 st = free_walk 1 s0 M 0 st).
    { replace (S (S (length cs))) with (length ((s0, u0) :: cs) + 1)%nat by (cbn [length]; lia).
      replace s0 with (hd 0 (map fst (((s0, u0) :: cs) ++ []))) at 3 by reflexivity.
      rewrite free_skip with (prev := 0); [reflexivity|rewrite app_nil_r; auto|].
      intros b Hb. split; [apply HZ; auto|]. pose proof (SEP b Hb M HM) as S1. unfold separate in S1. cbn [fst snd] in S1. unfold CSIZE, HSIZE in *. lia. }
    rewrite EW. cbn [free_walk Z.eqb]. apply wp_bind.
    apply wp_mm_free with (static := static) (s := HSIZE) (rest := hregs cs ++ sregs (sa ++ sb) ++ rest); auto.
    + apply perm_trans with (2 := H7). rewrite ES. unfold sregs. rewrite !map_app. cbn [map]. rewrite <- !app_assoc. cbn [app].
      apply perm_trans with (hregs cs ++ (M, HSIZE) :: map (fun h => (h, HSIZE)) sa ++ map (fun h => (h, HSIZE)) sb ++ rest);
        [apply Permutation_middle|]. apply Permutation_app_head. apply Permutation_middle.
    + intros h' P' RO'. apply wp_ok. apply HQ. exists u0, cs, (sa ++ sb). cbn [hblk hcur hheap].
      repeat (split; [assumption|]). apply Permutation_cons_inv with (a := M). apply perm_trans with (2 := H9). rewrite ES.
      apply perm_trans with (ents ((s0, u0) :: cs) ++ M :: sa ++ sb); [apply Permutation_middle|]. apply Permutation_app_head. apply Permutation_middle.
Qed.
