(** Proofs about the cache of memory blocks *)
From Coq Require Import Arith ZArith List Bool Lia Permutation.
From Verif Require Import Base ModelMem SpecMem SpecMemRun.
Import ListNotations.
Open Scope Z_scope.

Lemma separate_sym : forall a b, separate a b -> separate b a.
Proof. unfold separate. tauto. Qed.
Lemma apart_perm : forall l l', Permutation l l' -> apart l -> apart l'.
Proof.
  intros l l' P. induction P; intros H.
  - exact H.
  - inversion H as [|? ? H1 H2]; subst. constructor; auto. intros b Hb. apply H1.
    apply Permutation_in with (l := l'); auto. apply Permutation_sym; auto.
  - inversion H as [|? ? H1 H2]; subst. inversion H2 as [|? ? H3 H4]; subst. constructor.
    + intros b [<-|Hb]; [apply separate_sym, H1; left; auto|apply H3; auto].
    + constructor; auto. intros b Hb. apply H1. right; auto.
  - auto.
Qed.
Lemma apart_app : forall l l', apart (l ++ l') -> apart l /\ apart l' /\ forall a b, In a l -> In b l' -> separate a b.
Proof.
  induction l as [|a l IH]; intros l' H; cbn in H.
  - split; [constructor|]. split; auto. intros ? ? [].
  - inversion H as [|? ? H1 H2]; subst. destruct (IH _ H2) as (A1 & A2 & A3). split; [|split; auto].
    + constructor; auto. intros b Hb. apply H1. apply in_or_app; auto.
    + intros x b [<-|Hx] Hb; [apply H1, in_or_app; auto|auto].
Qed.

(** ** The system's memory *)
Lemma regions_perm : forall st l l', Permutation l l' -> regions_ok st l -> regions_ok st l'.
Proof.
  intros st l l' P [A B]. assert (P' : Permutation (st ++ l) (st ++ l')) by (apply Permutation_app_head; auto). split.
  - apply apart_perm with (1 := P'); auto.
  - intros r Hr. apply B. apply Permutation_in with (l := st ++ l'); auto. apply Permutation_sym; auto.
Qed.
Lemma regions_tail : forall st a l, regions_ok st (a :: l) -> regions_ok st l.
Proof.
  intros st a l [A B]. apply apart_perm with (l' := a :: st ++ l) in A; [|apply Permutation_sym, Permutation_middle].
  inversion A; subst. split; auto. intros r Hr. apply B. apply in_app_or in Hr. apply in_or_app. cbn. tauto.
Qed.
Lemma mm_malloc_ok : forall static al size h p h', alloc_ok static al -> regions_ok static (hreg h) -> 0 <= size ->
  mm_malloc al size h = (p, h') -> 0 < p /\ hreg h' = (p, size) :: hreg h /\ regions_ok static (hreg h').
Proof.
  intros static al size h p h' HA [A B] Hs E. unfold mm_malloc in E. injection E as <- <-. cbn [hreg].
  destruct (HA (hcnt h) (hreg h) size Hs) as [H1 H2]. split; auto. split; auto. split.
  - apply apart_perm with (l := (al (hcnt h) (hreg h) size, size) :: static ++ hreg h); [apply Permutation_middle|].
    constructor; auto. intros b Hb. apply H2. apply in_app_or in Hb. tauto.
  - intros r Hr. apply in_app_or in Hr. destruct Hr as [Hr|[<-|Hr]]; cbn [fst snd]; [|auto|]; apply B, in_or_app; auto.
Qed.
Lemma reg_remove_ok : forall l p s, In (p, s) l -> apart l -> exists l', reg_remove p l = Some l' /\ Permutation l ((p, s) :: l').
Proof.
  induction l as [|[q t] l IH]; intros p s Hin HA; [destruct Hin|]. inversion HA as [|? ? H1 H2]; subst.
  cbn [reg_remove]. destruct (Z.eqb_spec q p) as [->|Hq].
  - destruct Hin as [E|Hin]; [injection E as ->; eauto|]. specialize (H1 _ Hin). unfold separate in H1. cbn in H1. lia.
  - destruct Hin as [E|Hin]; [congruence|]. destruct (IH p s Hin H2) as (l' & -> & P). eexists. split; [reflexivity|].
    apply perm_trans with ((q, t) :: (p, s) :: l'); [constructor; auto|apply perm_swap].
Qed.
Lemma wp_mm_free : forall static p s rest h (Q : heap -> Prop), regions_ok static (hreg h) -> Permutation ((p, s) :: rest) (hreg h) ->
  (forall h', Permutation rest (hreg h') -> regions_ok static (hreg h') -> Q h') -> wp (mm_free p h) Q.
Proof.
  intros static p s rest h Q RO P HQ. pose proof RO as [A B].
  assert (Hin : In (p, s) (hreg h)) by (apply Permutation_in with (1 := P); left; auto).
  assert (Hp : 0 < p) by (apply (B (p, s)); apply in_or_app; auto).
  unfold mm_free. destruct (Z.eqb_spec p 0); [lia|].
  destruct (reg_remove_ok (hreg h) p s Hin) as (l' & -> & P'); [apply apart_app in A; tauto|].
  cbn [wp]. apply HQ; cbn [hreg].
  - apply Permutation_cons_inv with (a := (p, s)). apply perm_trans with (hreg h); auto.
  - apply regions_tail with (a := (p, s)). apply regions_perm with (l := hreg h); auto.
Qed.

(** ** The slots *)
Definition cb (b : mmb) : list region := if bsize b =? 0 then [] else [(bdata b, bsize b)].
Definition cached (slots : list mmb) : list region := concat (map cb slots).
Lemma cached_upd : forall slots i b, (i < length slots)%nat ->
  Permutation (cb b ++ cached slots) (cb (nth i slots (mkmmb 0 0)) ++ cached (upd slots i b)).
Proof.
  induction slots as [|x l IH]; intros i b Hi; [cbn in Hi; lia|]. destruct i as [|i]; cbn [upd nth cached map concat].
  - rewrite !app_assoc. apply Permutation_app_tail. apply Permutation_app_comm.
  - fold (cached l). fold (cached (upd l i b)). specialize (IH i b ltac:(cbn in Hi; lia)).
    apply perm_trans with (cb x ++ (cb b ++ cached l)); [rewrite !app_assoc; apply Permutation_app_tail, Permutation_app_comm|].
    apply perm_trans with (cb x ++ (cb (nth i l (mkmmb 0 0)) ++ cached (upd l i b))); [apply Permutation_app_head; auto|].
    rewrite !app_assoc. apply Permutation_app_tail, Permutation_app_comm.
Qed.
Lemma cached_len : forall slots, (length (cached slots) <= length slots)%nat.
Proof.
  induction slots as [|x l IH]; [cbn; lia|]. cbn [cached map concat]. fold (cached l). rewrite app_length. unfold cb.
  destruct (bsize x =? 0); cbn [length]; lia.
Qed.
Lemma find_slot_wp : forall size slots n i (Q : option nat -> Prop), (i + n = length slots)%nat ->
  (forall j, (j < length slots)%nat -> bsize (nth j slots (mkmmb 0 0)) = size -> Q (Some j)) ->
  ((forall j, (i <= j < length slots)%nat -> bsize (nth j slots (mkmmb 0 0)) <> size) -> Q None) ->
  wp (find_slot n i slots size) Q.
Proof.
  intros size slots n. induction n as [|n IH]; intros i Q Hi HS HN; cbn [find_slot].
  - apply HN. intros; lia.
  - apply wp_bind. apply wp_aget with (d := mkmmb 0 0); [lia|].
    destruct (Z.eqb_spec (bsize (nth i slots (mkmmb 0 0))) size) as [E|E]; [apply HS; auto; lia|].
    apply IH; [lia|auto|]. intros H. apply HN. intros j Hj. destruct (Nat.eq_dec j i) as [->|]; auto. apply H. lia.
Qed.

(** the invariant: what the system has given out is what is cached and what is in use elsewhere *)
Definition minv (static rest : list region) (st : mmst) : Prop :=
  length (mslots st) = NBLOCKS /\ (mj st < NBLOCKS)%nat /\
  Permutation (cached (mslots st) ++ rest) (hreg (mheap st)) /\ regions_ok static (hreg (mheap st)).

Lemma minv_mk : forall static rest slots j h, length slots = NBLOCKS -> (j < NBLOCKS)%nat ->
  Permutation (cached slots ++ rest) (hreg h) -> regions_ok static (hreg h) -> minv static rest (mkmmst slots j h).
Proof. intros. unfold minv. auto. Qed.
Lemma mmc_malloc_wp : forall static al thr size rest st (Q : Z * mmst -> Prop), alloc_ok static al -> 0 < size -> minv static rest st ->
  (forall p st', 0 < p -> minv static ((p, size) :: rest) st' -> Q (p, st')) -> wp (mmc_malloc al thr size st) Q.
Proof.
  intros static al thr size rest st Q HA Hs (L & J & P & RO) HQ. unfold mmc_malloc. apply wp_bind.
  assert (FRESH : wp (let '(p, h) := mm_malloc al size (mheap st) in Ok (p, mkmmst (mslots st) (mj st) h)) Q).
  { destruct (mm_malloc al size (mheap st)) as [p h] eqn:E.
    destruct (mm_malloc_ok static al size (mheap st) p h HA RO ltac:(lia) E) as (Hp & Eh & RO'). cbn [wp]. apply HQ; auto.
    apply minv_mk; auto. rewrite Eh.
    apply perm_trans with ((p, size) :: cached (mslots st) ++ rest); [apply Permutation_sym, Permutation_middle|constructor; auto]. }
  destruct (size <=? thr); [|apply wp_ok; cbn [Z.eqb]; exact FRESH].
  apply wp_bind. apply find_slot_wp; [rewrite L; reflexivity| |].
  - intros i Hi Es. apply wp_bind. apply wp_aget with (d := mkmmb 0 0); auto. apply wp_bind. apply wp_aset; auto. apply wp_ok.
    pose proof (cached_upd (mslots st) i (mkmmb 0 0) Hi) as CU. unfold cb in CU. cbn [bsize Z.eqb app] in CU.
    set (b := nth i (mslots st) (mkmmb 0 0)) in *. destruct (Z.eqb_spec (bsize b) 0) as [|_]; [lia|]. rewrite Es in CU. cbn [app] in CU.
    assert (P' : Permutation (cached (upd (mslots st) i (mkmmb 0 0)) ++ (bdata b, size) :: rest) (hreg (mheap st))).
    { apply perm_trans with (cached (mslots st) ++ rest); auto.
      apply perm_trans with ((bdata b, size) :: cached (upd (mslots st) i (mkmmb 0 0)) ++ rest); [apply Permutation_sym, Permutation_middle|].
      change ((bdata b, size) :: cached (upd (mslots st) i (mkmmb 0 0)) ++ rest) with (((bdata b, size) :: cached (upd (mslots st) i (mkmmb 0 0))) ++ rest).
      apply Permutation_app_tail, Permutation_sym; auto. }
    assert (Hp : 0 < bdata b).
    { apply (proj2 RO (bdata b, size)). apply in_or_app. right. apply Permutation_in with (1 := P'). apply in_or_app. right. left. auto. }
    destruct (Z.eqb_spec (bdata b) 0); [lia|]. cbn [wp]. apply HQ; auto. apply minv_mk; auto.
    rewrite length_upd. auto.
  - intros _. apply wp_ok. cbn [Z.eqb]. exact FRESH.
Qed.

Lemma mmc_free_wp : forall static thr p size rest st (Q : mmst -> Prop), 0 < size -> minv static ((p, size) :: rest) st ->
  (forall st', minv static rest st' -> Q st') -> wp (mmc_free thr p size st) Q.
Proof.
  intros static thr p size rest st Q Hs (L & J & P & RO) HQ. unfold mmc_free.
  assert (P1 : Permutation ((p, size) :: cached (mslots st) ++ rest) (hreg (mheap st)))
    by (apply perm_trans with (2 := P), Permutation_middle).
  destruct (size <? thr).
  - apply wp_bind. apply find_slot_wp; [rewrite L; reflexivity| |].
    + intros i Hi Es. apply wp_bind. apply wp_aset; auto. apply wp_ok. apply HQ.
      pose proof (cached_upd (mslots st) i (mkmmb size p) Hi) as CU. unfold cb in CU. rewrite Es in CU. cbn [bsize bdata Z.eqb] in CU.
      destruct (Z.eqb_spec size 0); [lia|]. cbn [app] in CU.
      apply minv_mk; auto; [rewrite length_upd; auto|].
      apply perm_trans with (2 := P1).
      change ((p, size) :: cached (mslots st) ++ rest) with (((p, size) :: cached (mslots st)) ++ rest).
      apply Permutation_app_tail, Permutation_sym; auto.
    + intros NZ. apply wp_bind. apply wp_aget with (d := mkmmb 0 0); [lia|]. apply wp_bind.
      set (b := nth (mj st) (mslots st) (mkmmb 0 0)).
      assert (Hb : bsize b <> 0) by (apply NZ; lia).
      pose proof (cached_upd (mslots st) (mj st) (mkmmb size p) ltac:(lia)) as CU. fold b in CU. unfold cb in CU. cbn [bsize bdata] in CU.
      destruct (Z.eqb_spec size 0); [lia|]. destruct (Z.eqb_spec (bsize b) 0); [lia|]. cbn [app] in CU.
      apply wp_mm_free with (static := static) (s := bsize b) (rest := cached (upd (mslots st) (mj st) (mkmmb size p)) ++ rest); auto.
      * apply perm_trans with (2 := P1).
        change ((p, size) :: cached (mslots st) ++ rest) with (((p, size) :: cached (mslots st)) ++ rest).
        change ((bdata b, bsize b) :: cached (upd (mslots st) (mj st) (mkmmb size p)) ++ rest)
          with (((bdata b, bsize b) :: cached (upd (mslots st) (mj st) (mkmmb size p))) ++ rest).
        apply Permutation_app_tail, Permutation_sym; auto.
      * intros h' P' RO'. apply wp_bind. apply wp_aset; [lia|]. apply wp_ok. apply HQ.
        apply minv_mk; auto; [rewrite length_upd; auto|apply Nat.mod_upper_bound; discriminate].
  - apply wp_bind. apply wp_mm_free with (static := static) (s := size) (rest := cached (mslots st) ++ rest); auto.
    intros h' P' RO'. apply wp_ok. apply HQ. apply minv_mk; auto.
Qed.

Lemma mmc_cleanup_wp : forall static rest st (Q : mmst -> Prop), minv static rest st ->
  (forall st', minv static rest st' -> cached (mslots st') = [] -> Q st') -> wp (mmc_cleanup st) Q.
Proof.
  intros static rest st Q HI HQ. unfold mmc_cleanup.
  apply wp_for_up with (I := fun i st => minv static rest st /\ forall j, (j < i)%nat -> bsize (nth j (mslots st) (mkmmb 0 0)) = 0); [lia| | |].
  - split; auto. intros; lia.
  - intros i s _ Hi ((L & J & P & RO) & Z0). apply wp_bind. apply wp_aget with (d := mkmmb 0 0); [lia|]. apply wp_bind.
    set (b := nth i (mslots s) (mkmmb 0 0)).
    pose proof (cached_upd (mslots s) i (mkmmb 0 (bdata b)) ltac:(lia)) as CU. fold b in CU. unfold cb in CU. cbn [bsize Z.eqb app] in CU.
    assert (END : forall h, Permutation (cached (upd (mslots s) i (mkmmb 0 (bdata b))) ++ rest) (hreg h) -> regions_ok static (hreg h) ->
      wp (slots <- aset (mslots s) i (mkmmb 0 (bdata b)) ;; Ok (mkmmst slots (mj s) h))
        (fun st => minv static rest st /\ forall j, (j < S i)%nat -> bsize (nth j (mslots st) (mkmmb 0 0)) = 0)).
    { intros h Ph ROh. apply wp_bind. apply wp_aset; [lia|]. apply wp_ok. cbn [mslots]. split.
      - apply minv_mk; auto. rewrite length_upd. auto.
      - intros j Hj. rewrite nth_upd by lia. destruct (Nat.eqb_spec j i); auto. apply Z0. lia. }
    destruct (Z.eqb_spec (bsize b) 0) as [E|E].
    + apply wp_ok. apply END; auto. apply perm_trans with (2 := P). apply Permutation_app_tail, Permutation_sym. exact CU.
    + cbn [app] in CU. apply wp_mm_free with (static := static) (s := bsize b) (rest := cached (upd (mslots s) i (mkmmb 0 (bdata b))) ++ rest); auto.
      apply perm_trans with (2 := P).
      change ((bdata b, bsize b) :: cached (upd (mslots s) i (mkmmb 0 (bdata b))) ++ rest)
        with (((bdata b, bsize b) :: cached (upd (mslots s) i (mkmmb 0 (bdata b)))) ++ rest).
      apply Permutation_app_tail, Permutation_sym; auto.
  - intros s (HI' & Z0). apply HQ; auto. destruct HI' as (L & _). rewrite <- L in Z0. clear - Z0.
    induction (mslots s) as [|x l IH]; auto. cbn [cached map concat]. fold (cached l). unfold cb at 1.
    pose proof (Z0 0%nat ltac:(cbn; lia)) as E. cbn [nth] in E. rewrite E. cbn. apply IH. intros j Hj. apply (Z0 (S j)). cbn; lia.
Qed.

(** ** Programs that use the cache *)
Lemma split_nth : forall A (l : list A) k x, nth_error l k = Some x -> Permutation l (x :: firstn k l ++ skipn (S k) l).
Proof.
  intros A l. induction l as [|a l IH]; intros [|k] x H; try discriminate H.
  - injection H as ->. reflexivity.
  - cbn [nth_error] in H. cbn [firstn skipn app]. apply perm_trans with (a :: x :: firstn k l ++ skipn (S k) l); [constructor; apply IH; auto|apply perm_swap].
Qed.
Lemma minv_perm : forall static l l' st, Permutation l l' -> minv static l st -> minv static l' st.
Proof.
  intros static l l' st P (A & B & C & D). split; [auto|]. split; [auto|]. split; [|auto].
  apply perm_trans with (2 := C). apply Permutation_app_head, Permutation_sym; auto.
Qed.
Lemma mm_run_wp : forall static al thr ops live rest st, alloc_ok static al -> Forall mmop_ok ops ->
  (forall r, In r live -> 0 < snd r) -> minv static (live ++ rest) st ->
  wp (mm_run al thr ops live st) (fun o => let '(live', st') := o in minv static (live' ++ rest) st' /\ forall r, In r live' -> 0 < snd r).
Proof.
  intros static al thr ops. induction ops as [|o ops IH]; intros live rest st HA HF HL HI; [apply wp_ok; auto|].
  inversion HF as [|? ? Ho HF']; subst. destruct o as [size|k|]; cbn [mm_run].
  - apply wp_bind. apply mmc_malloc_wp with (static := static) (rest := live ++ rest); auto. intros p st' _ HI'. apply IH; auto.
    intros r [<-|Hr]; auto.
  - destruct (@nth_error region live k) as [[p size]|] eqn:E; [|apply IH; auto].
    apply wp_bind. pose proof (split_nth _ live k _ E) as SP.
    assert (Hin : In (p, size) live) by (apply nth_error_In with (1 := E)).
    apply mmc_free_wp with (static := static) (rest := (firstn k live ++ skipn (S k) live) ++ rest); [apply (HL _ Hin)| |].
    + apply minv_perm with (2 := HI). rewrite app_comm_cons. apply Permutation_app_tail; auto.
    + intros st' HI'. apply IH; auto. intros r Hr. apply HL. apply Permutation_in with (l := (p, size) :: firstn k live ++ skipn (S k) live);
        [apply Permutation_sym; auto|right; auto].
  - apply wp_bind. apply mmc_cleanup_wp with (1 := HI). intros st' HI' _. apply IH; auto.
Qed.
Lemma minv_start : forall static h, regions_ok static (hreg h) -> minv static (hreg h) (mm_start h).
Proof. intros static h H. apply minv_mk; auto; unfold NBLOCKS; lia. Qed.
