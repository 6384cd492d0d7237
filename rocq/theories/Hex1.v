(** Hexadecimal text: ModelHex.v *)
From Coq Require Import Arith NArith ZArith List Bool Lia.
From Verif Require Import Base ModelHex SpecHex.
Import ListNotations.
Local Open Scope nat_scope.

Lemma ascii2hex_all : forallb (fun v => match nth_error upper v, nth_error lower v with
  | Some c, Some c' => match ascii2hex c, ascii2hex c' with Ok x, Ok y => N.eqb x (N.of_nat v) && N.eqb y (N.of_nat v) | _, _ => false end
  | _, _ => false end) (seq 0 16) = true.
Proof. vm_compute. reflexivity. Qed.
Lemma ascii2hex_writes : forall c v, writes c v -> ascii2hex c = Ok v.
Proof.
  intros c v [Hv H]. pose proof ascii2hex_all as F. rewrite forallb_forall in F.
  specialize (F (N.to_nat v)). rewrite in_seq in F. specialize (F ltac:(lia)).
  destruct (nth_error upper (N.to_nat v)) as [c1|] eqn:E1; [|discriminate].
  destruct (nth_error lower (N.to_nat v)) as [c2|] eqn:E2; [|discriminate].
  destruct (ascii2hex c1) eqn:A1; [|discriminate]. destruct (ascii2hex c2) eqn:A2; [|discriminate].
  apply andb_true_iff in F. destruct F as [F1 F2]. apply N.eqb_eq in F1, F2. rewrite N2Nat.id in F1, F2. subst.
  destruct H as [H|H]; injection H as <-; assumption.
Qed.

Lemma aget_app_r : forall (p s : list N) i, aget (p ++ s) (length p + i) = aget s i.
Proof.
  intros p s i. unfold aget. rewrite nth_error_app2 by lia. replace (length p + i - length p) with i by lia. reflexivity.
Qed.
Lemma aset_app_r : forall (p : list N) x s y, aset (p ++ x :: s) (length p) y = Ok (p ++ y :: s).
Proof.
  intros p x s y. unfold aset. rewrite app_length. cbn [length]. destruct (Nat.ltb_spec (length p) (length p + S (length s))); [|lia].
  f_equal. clear H. induction p; cbn; [reflexivity|]. f_equal. exact IHp.
Qed.

Lemma loop_ok : forall s bs, hextext s bs -> forall p done out extra len fuel,
  length out = length bs -> len = length p + length s -> length s <= fuel ->
  str2hex_loop fuel (length p) (length done) (p ++ s) (done ++ out ++ extra) len = Ok (done ++ bs ++ extra).
Proof.
  intros s bs H. induction H as [|c c' h l s bs Hc Hc' H IH]; intros p done out extra len fuel HL Hlen Hf.
  - destruct out; [|discriminate]. destruct fuel; [reflexivity|]. cbn [str2hex_loop].
    destruct (Nat.ltb_spec (length p) len); [cbn [length] in *; lia|]. reflexivity.
  - destruct out as [|o out]; [discriminate|]. cbn [length] in *. destruct fuel as [|fuel]; [lia|]. cbn [str2hex_loop].
    destruct (Nat.ltb_spec (length p) len); [|lia].
    replace (aget (p ++ c :: c' :: s) (length p)) with (Ok c)
      by (rewrite <- (Nat.add_0_r (length p)), aget_app_r; reflexivity).
    cbn [bind]. rewrite (ascii2hex_writes c h Hc). cbn [bind]. rewrite aget_app_r. cbn [aget nth_error bind].
    change (bind (aget (c :: c' :: s) 1) ?f) with (f c'). cbv beta.
    rewrite (ascii2hex_writes c' l Hc'). cbn [bind app]. rewrite aset_app_r. cbn [bind].
    replace ((N.shiftl h 4 + l) mod 256)%N with (16 * h + l)%N.
    2:{ destruct Hc as [Hh _], Hc' as [Hl _]. rewrite N.shiftl_mul_pow2. change (2 ^ 4)%N with 16%N. rewrite N.mod_small by lia. lia. }
    specialize (IH (p ++ [c; c']) (done ++ [(16 * h + l)%N]) out extra len fuel).
    rewrite !app_length in IH. cbn [length] in IH. rewrite <- !app_assoc in IH. cbn [app] in IH.
    apply IH; lia.
Qed.
Lemma str2hex_ok : forall s bs out extra, hextext s bs -> length out = length bs ->
  asciiStr2hex s (out ++ extra) (length s) = Ok (bs ++ extra).
Proof. intros s bs out extra H HL. unfold asciiStr2hex. exact (loop_ok s bs H [] [] out extra (length s) (length s) HL eq_refl (Nat.le_refl _)). Qed.

Lemma hex_digit_all : forallb (fun v => match nth_error upper v with Some c => N.eqb c (hex_digit (N.of_nat v)) | None => false end) (seq 0 16) = true.
Proof. vm_compute. reflexivity. Qed.
Lemma hex_digit_writes : forall v, (v < 16)%N -> writes (hex_digit v) v /\ nth_error upper (N.to_nat v) = Some (hex_digit v).
Proof.
  intros v Hv. pose proof hex_digit_all as F. rewrite forallb_forall in F.
  specialize (F (N.to_nat v)). rewrite in_seq in F. specialize (F ltac:(lia)).
  destruct (nth_error upper (N.to_nat v)) as [c|] eqn:E; [|discriminate]. apply N.eqb_eq in F. rewrite N2Nat.id in F. subst c.
  split; [|reflexivity]. split; [exact Hv|]. left. exact E.
Qed.

Definition hexes (bs : list N) : list N := flat_map (fun x => [hex_digit (x / 16); hex_digit (x mod 16)]%N) bs.
Lemma hexes_text : forall bs, (forall x, In x bs -> (x < 256)%N) -> hextext (hexes bs) bs.
Proof.
  induction bs as [|x bs IH]; intros H; [constructor|]. cbn [hexes flat_map app].
  assert (Hx : (x < 256)%N) by (apply H; left; reflexivity).
  rewrite (N.div_mod x 16) at 3 by discriminate.
  constructor; [apply hex_digit_writes|apply hex_digit_writes|apply IH; intros; apply H; right; assumption].
  - apply N.div_lt_upper_bound; [discriminate|exact Hx].
  - apply N.mod_lt. discriminate.
Qed.
Lemma hexes_length : forall bs, length (hexes bs) = 2 * length bs.
Proof. induction bs; cbn [hexes flat_map app length]; [reflexivity|]. unfold hexes in IHbs. lia. Qed.

Lemma hexes_app : forall a b, hexes (a ++ b) = hexes a ++ hexes b.
Proof. intros a b. apply flat_map_app. Qed.
Lemma printstate_ok : forall st, 16 <= length st -> printstate st = Ok (hexes (firstn 16 st) ++ [10%N]).
Proof.
  intros st HL. unfold printstate.
  assert (W : wp (for_up 0 16 (fun i s => x <- aget st i ;; Ok (s ++ [hex_digit (x / 16); hex_digit (x mod 16)]%N)) [])
                 (fun s => s = hexes (firstn 16 st))).
  { apply (wp_for_up _ (fun i s => s = hexes (firstn i st))); [lia|reflexivity| |auto].
    intros i s _ Hi ->. apply wp_bind, (wp_aget _ _ _ 0%N); [lia|]. apply wp_ok.
    assert (E : firstn (S i) st = firstn i st ++ [nth i st 0%N]).
    { clear - Hi HL. assert (H : i < length st) by lia. clear HL Hi. revert st H. induction i; intros [|x st] H; cbn in *; try lia; [reflexivity|].
      f_equal. apply IHi. lia. }
    rewrite E, hexes_app. reflexivity. }
  apply wp_exists in W. destruct W as (s & E & ->). rewrite E. reflexivity.
Qed.

Lemma round_trip : forall st out, length st = 16 -> (forall x, In x st -> (x < 256)%N) -> length out = 16 ->
  exists txt, printstate st = Ok (txt ++ [10%N]) /\ length txt = 32 /\ asciiStr2hex txt out 32 = Ok st.
Proof.
  intros st out HL HB HO. exists (hexes st). split; [rewrite printstate_ok, firstn_all2 by lia; reflexivity|].
  assert (HX : length (hexes st) = 32) by (rewrite hexes_length, HL; reflexivity). split; [exact HX|].
  rewrite <- HX. pose proof (str2hex_ok (hexes st) st out [] (hexes_text st HB) ltac:(lia)) as E.
  rewrite !app_nil_r in E. exact E.
Qed.

(** Other characters *)
Lemma writes_dec : forall c, (c < 256)%N -> (exists v, writes c v) \/ (forall v, ~ writes c v).
Proof.
  intros c Hc. destruct (existsb (fun v => match nth_error upper v with Some x => N.eqb x c | None => false end ||
    match nth_error lower v with Some x => N.eqb x c | None => false end) (seq 0 16)) eqn:E.
  - left. apply existsb_exists in E. destruct E as (v & Hv & E). rewrite in_seq in Hv. exists (N.of_nat v).
    split; [lia|]. rewrite Nat2N.id. apply orb_true_iff in E. destruct E as [E|E].
    + left. destruct (nth_error upper v); [|discriminate]. apply N.eqb_eq in E. subst. reflexivity.
    + right. destruct (nth_error lower v); [|discriminate]. apply N.eqb_eq in E. subst. reflexivity.
  - right. intros v [Hv H]. enough (X : false = true) by discriminate. rewrite <- E. apply existsb_exists. exists (N.to_nat v).
    split; [apply in_seq; lia|]. destruct H as [H|H]; rewrite H, N.eqb_refl; [reflexivity|apply orb_true_r].
Qed.
Lemma ascii2hex_codes : forallb (fun i => let c := N.of_nat i in match ascii2hex c with
    | Ok v => existsb (fun v => match nth_error upper v with Some x => N.eqb x c | None => false end ||
                               match nth_error lower v with Some x => N.eqb x c | None => false end) (seq 0 16)
    | UB => true end) (seq 0 256) = true.
Proof. vm_compute. reflexivity. Qed.
Lemma ascii2hex_iff : forall c v, (c < 256)%N -> (ascii2hex c = Ok v <-> writes c v).
Proof.
  intros c v Hc. split; [|apply ascii2hex_writes]. intros E.
  destruct (writes_dec c Hc) as [[v' W]|N].
  - rewrite (ascii2hex_writes c v' W) in E. injection E as <-. exact W.
  - exfalso. pose proof ascii2hex_codes as F. rewrite forallb_forall in F. specialize (F (N.to_nat c)). rewrite in_seq in F.
    specialize (F ltac:(lia)). cbv zeta in F. rewrite N2Nat.id, E in F. apply existsb_exists in F. destruct F as (v' & Hv & F).
    rewrite in_seq in Hv. apply (N (N.of_nat v')). split; [lia|]. rewrite Nat2N.id. apply orb_true_iff in F. destruct F as [F|F].
    + left. destruct (nth_error upper v'); [|discriminate]. apply N.eqb_eq in F. subst. reflexivity.
    + right. destruct (nth_error lower v'); [|discriminate]. apply N.eqb_eq in F. subst. reflexivity.
Qed.
