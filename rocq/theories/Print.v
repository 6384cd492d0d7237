(** Lemmas about the printing functions. *)
From Coq Require Import Arith NArith List Bool String Ascii Lia.
From Verif Require Import Base Tables Model Spec LinAlg Mem ModelPrint SpecPrint.
Import ListNotations.
Local Open Scope string_scope.

Lemma app_nil_r_s : forall s, s ++ "" = s.
Proof. induction s; simpl; congruence. Qed.
Lemma app_assoc_s : forall a b c, (a ++ b) ++ c = a ++ (b ++ c).
Proof. induction a; simpl; intros; congruence. Qed.

Lemma cat_ext : forall n f g, (forall i, i < n -> f i = g i) -> cat n f = cat n g.
Proof. induction n; simpl; intros f g H; auto. rewrite (IHn f g), H; auto. Qed.

Lemma up_n_out : forall body f k a out,
  (forall i, a <= i -> i < a + k -> body i = Ok (f i)) ->
  up_n k a (fun i out => x <- body i ;; Ok (out ++ x)) out
  = Ok (out ++ cat k (fun i => f (a + i))).
Proof.
  intros body f. induction k as [|k IH]; intros a out H; cbn [up_n cat].
  - rewrite app_nil_r_s. reflexivity.
  - rewrite H by lia. cbn [bind]. rewrite IH by (intros; apply H; lia). f_equal.
    rewrite app_assoc_s. f_equal.
    clear. revert a. induction k; intros a; cbn [cat].
    + rewrite app_nil_r_s, Nat.add_0_r. reflexivity.
    + rewrite <- app_assoc_s, IHk. cbn [cat]. f_equal. f_equal. lia.
Qed.
Lemma out_loop_eq : forall n body f, (forall i, i < n -> body i = Ok (f i)) ->
  out_loop 0 n body = Ok (cat n f).
Proof.
  intros n body f H. unfold out_loop, for_up. rewrite Nat.sub_0_r.
  rewrite (up_n_out body f); auto.
Qed.

Lemma aget_nth : forall A (l : list A) i d, i < List.length l -> aget l i = Ok (nth i l d).
Proof. intros A l i d H. unfold aget. rewrite (nth_error_nth' l d H). reflexivity. Qed.
Lemma mget_word : forall w m i k, shapeM w m -> i < dim w -> k < nw w ->
  mget m i k = Ok (word m i k).
Proof.
  intros w m i k Hm Hi Hk. assert (H : wp (mget m i k) (fun x => x = word m i k))
    by (apply (wp_mget w); auto).
  destruct (mget m i k); simpl in H; [congruence|contradiction].
Qed.

(** ** Hexadecimal numbers *)
Lemma digit_check : forallb (fun d => match hexdigit (digit (N.of_nat d)) with
    Some e => N.eqb e (N.of_nat d) | None => false end) (seq 0 16) = true.
Proof. vm_compute. reflexivity. Qed.
Lemma hexdigit_digit : forall d, (d < 16)%N -> hexdigit (digit d) = Some d.
Proof.
  intros d Hd. pose proof digit_check as H. rewrite forallb_forall in H.
  specialize (H (N.to_nat d)). rewrite in_seq, N2Nat.id in H.
  destruct (hexdigit (digit d)); [|discriminate H; lia].
  f_equal. apply N.eqb_eq. apply H. lia.
Qed.
Lemma hexnum_digits : forall f n acc, (n < 2 ^ N.of_nat f)%N ->
  hexnum 0 (digits 16 f n acc) = hexnum n acc.
Proof.
  induction f as [|f IH]; intros n acc H.
  - change (2 ^ N.of_nat 0)%N with 1%N in H. replace n with 0%N by lia. reflexivity.
  - cbn [digits]. destruct (N.ltb_spec n 16) as [Hn|Hn].
    + rewrite N.mod_small by auto. cbn [hexnum]. rewrite hexdigit_digit by auto. f_equal.
    + rewrite IH.
      * cbn [hexnum]. rewrite hexdigit_digit by (apply N.mod_lt; discriminate).
        f_equal. symmetry. apply N.div_mod. discriminate.
      * rewrite Nat2N.inj_succ, N.pow_succ_r' in H.
        apply N.div_lt_upper_bound; [discriminate|]. lia.
Qed.
Lemma size_bound : forall n, (n < 2 ^ N.of_nat (S (N.size_nat n)))%N.
Proof.
  intros n. rewrite Nat2N.inj_succ, N.pow_succ_r'.
  assert (H : (n < 2 ^ N.of_nat (N.size_nat n))%N).
  { replace (N.of_nat (N.size_nat n)) with (N.size n) by (destruct n; auto; simpl;
      induction p; simpl in *; auto; rewrite ?IHp; lia). apply N.size_gt. }
  lia.
Qed.
Lemma digits_first : forall b f n acc, exists c r, digits b (S f) n acc = String c r.
Proof.
  intros b. induction f as [|f IH]; intros n acc; cbn [digits];
    destruct (N.ltb n b); eauto.
Qed.
Lemma readhex_show : forall n, readhex ("0x" ++ show 16 n) = Some n.
Proof.
  intros n. unfold show. destruct (digits_first 16 (N.size_nat n) n "") as (c & r & E).
  pose proof (hexnum_digits (S (N.size_nat n)) n "" (size_bound n)) as H.
  rewrite E in *. exact H.
Qed.

(** ** Splitting *)
Fixpoint without (sep : ascii) (s : string) : bool :=
  match s with "" => true | String c s' => negb (Ascii.eqb c sep) && without sep s' end.
Lemma without_app : forall sep a b, without sep (a ++ b) = without sep a && without sep b.
Proof. induction a; simpl; intros; auto. rewrite IHa. apply andb_assoc. Qed.
Lemma split_sep : forall sep a b, without sep a = true ->
  split sep (a ++ String sep b) = a :: split sep b.
Proof.
  induction a as [|c a IH]; intros b H; simpl in *.
  - rewrite Ascii.eqb_refl. reflexivity.
  - apply andb_prop in H. destruct H as [H1 H2]. apply negb_true_iff in H1. rewrite H1.
    rewrite IH by auto. reflexivity.
Qed.
Lemma split_one : forall sep a, without sep a = true -> split sep a = [a].
Proof.
  induction a as [|c a IH]; intros H; simpl in *; auto.
  apply andb_prop in H. destruct H as [H1 H2]. apply negb_true_iff in H1. rewrite H1.
  rewrite IH by auto. reflexivity.
Qed.
Lemma without_hex : forall sep, hexdigit sep = None -> forall f n acc,
  without sep acc = true -> without sep (digits 16 f n acc) = true.
Proof.
  intros sep Hs. induction f as [|f IH]; intros n acc H; cbn [digits]; auto.
  assert (H' : without sep (String (digit (n mod 16)) acc) = true).
  { cbn [without]. rewrite H, andb_true_r. apply negb_true_iff. apply Ascii.eqb_neq. intros E.
    rewrite <- E, hexdigit_digit in Hs by (apply N.mod_lt; discriminate). discriminate. }
  destruct (N.ltb n 16); auto.
Qed.

Definition num (x : N) : string := "0x" ++ show 16 x.
Lemma num_blank : forall x, without " " (num x) = true.
Proof. intros x. apply without_hex; reflexivity. Qed.
Lemma num_newline : forall x, without newline (num x) = true.
Proof. intros x. apply without_hex; reflexivity. Qed.

(** A row: numbers separated by blanks *)
Fixpoint row_text (l : list N) : string :=
  match l with
  | [] => ""
  | [x] => num x
  | x :: l' => num x ++ String " " (row_text l')
  end.
Lemma row_newline : forall l, without newline (row_text l) = true.
Proof.
  induction l as [|x [|y l] IH]; auto.
  - apply num_newline.
  - change (row_text (x :: y :: l)) with (num x ++ String " " (row_text (y :: l))).
    rewrite without_app, num_newline. cbn [without]. rewrite IH. reflexivity.
Qed.
Lemma row_fields : forall l, l <> [] -> map readhex (fields (row_text l)) = map Some l.
Proof.
  induction l as [|x [|y l] IH]; intros H; [congruence| |].
  - unfold fields. simpl row_text. rewrite split_one by apply num_blank.
    cbn [map]. unfold num. rewrite readhex_show. reflexivity.
  - change (row_text (x :: y :: l)) with (num x ++ String " " (row_text (y :: l))).
    unfold fields in *. rewrite split_sep by apply num_blank. cbn [map]. f_equal.
    + apply readhex_show.
    + apply IH. discriminate.
Qed.
Fixpoint rows_text (m : list (list N)) : string :=
  match m with [] => "" | r :: m' => row_text r ++ String newline (rows_text m') end.
Lemma split_nonnil : forall sep s, split sep s <> [].
Proof.
  intros sep [|c s]; simpl; [discriminate|]. destruct (Ascii.eqb c sep); [discriminate|].
  destruct (split sep s); discriminate.
Qed.
Lemma rows_read : forall m, Forall (fun r => r <> []) m ->
  readtext (rows_text m) = map (map Some) m.
Proof.
  unfold readtext, lines. induction m as [|r m IH]; intros H; auto.
  cbn [rows_text map]. rewrite split_sep by apply row_newline.
  inversion_clear H.
  pose proof (split_nonnil newline (rows_text m)) as Hne.
  change (removelast (row_text r :: split newline (rows_text m)))
    with (match split newline (rows_text m) with [] => [] | _ :: _ =>
            row_text r :: removelast (split newline (rows_text m)) end).
  destruct (split newline (rows_text m)) eqn:E; [congruence|]. rewrite <- E in *.
  cbn [map]. rewrite row_fields by auto. rewrite <- IH by auto. rewrite E. reflexivity.
Qed.

(** ** The functions *)
Lemma printf_elem : forall w k x, printf (elem_fmt w k) (Some (elem_arg w x))
  = Ok (num x ++ (if Nat.eqb k (nw w - 1) then String newline "" else " ")).
Proof.
  intros w k x. unfold elem_fmt. destruct (Nat.eqb k (nw w - 1));
    destruct w; cbn; unfold num; cbn; rewrite ?app_assoc_s; reflexivity.
Qed.

Definition elem_text (w : width) (k : nat) (x : N) : string :=
  num x ++ (if Nat.eqb k (nw w - 1) then String newline "" else " ").
Lemma cat_row : forall w r, List.length r = nw w ->
  cat (nw w) (fun k => elem_text w k (nth k r 0%N)) = row_text r ++ String newline "".
Proof.
  intros w r H. unfold elem_text.
  destruct w; simpl in H; repeat (destruct r as [|? r]; try discriminate H);
    cbn [cat nw nth Nat.eqb Nat.sub row_text];
    repeat match goal with |- context [num ?x] => generalize (num x); intro end;
    repeat (rewrite ?app_assoc_s; cbn [append]); reflexivity.
Qed.
Lemma printV_text : forall w v, shapeV w v -> printV w v = Ok (row_text v ++ String newline "").
Proof.
  intros w v H. unfold printV. rewrite <- (cat_row w) by exact H. apply out_loop_eq.
  intros k Hk. unfold shapeV in H. rewrite (aget_nth _ v k 0%N) by lia. apply printf_elem.
Qed.
Lemma cat_rows : forall m, cat (List.length m) (fun i => row_text (nth i m []) ++ String newline "")
  = rows_text m.
Proof.
  induction m as [|r m IH] using rev_ind; auto.
  rewrite app_length, Nat.add_1_r. cbn [cat].
  rewrite (cat_ext _ _ (fun i => row_text (nth i m []) ++ String newline "")).
  2:{ intros i Hi. rewrite app_nth1 by auto. reflexivity. }
  rewrite IH, app_nth2, Nat.sub_diag by lia. cbn [nth]. clear.
  induction m as [|a m IH]; auto. cbn [rows_text List.app].
  rewrite app_assoc_s. f_equal. simpl. f_equal. exact IH.
Qed.
Lemma printM_text : forall w m, shapeM w m -> printM w m = Ok (rows_text m).
Proof.
  intros w m H. unfold printM. rewrite <- cat_rows. rewrite (proj1 H). apply out_loop_eq.
  intros i Hi. rewrite <- (cat_row w) by (apply shapeM_row; auto). apply out_loop_eq.
  intros k Hk. rewrite (mget_word w) by auto. apply printf_elem.
Qed.

(** ** printbit *)
Lemma cat_flat : forall a b (g : nat -> string),
  cat b (fun k => cat a (fun c => g (a * k + c))) = cat (a * b) g.
Proof.
  intros a b g. induction b as [|b IH]; cbn [cat].
  - rewrite Nat.mul_0_r. reflexivity.
  - rewrite IH. replace (a * S b) with (a * b + a) by lia. generalize (a * b). clear.
    intros n. induction a as [|a IH]; cbn [cat].
    + rewrite Nat.add_0_r. apply app_nil_r_s.
    + rewrite <- app_assoc_s, IH, Nat.add_succ_r. reflexivity.
Qed.

Definition bit_text (b : bool) : string := if b then "1 " else "0 ".
Lemma land_pow2_zero : forall x q, N.eqb (N.land x (2 ^ q)) 0 = negb (N.testbit x q).
Proof.
  intros x q. destruct (N.testbit x q) eqn:E.
  - apply N.eqb_neq. intros H. apply (f_equal (fun y => N.testbit y q)) in H.
    rewrite N.land_spec, N.pow2_bits_true, E in H. discriminate.
  - apply N.eqb_eq. apply N.bits_inj. intros k. rewrite N.land_spec, N.pow2_bits_eqb.
    destruct (N.eqb_spec q k) as [<-|]; [rewrite E|]; auto. apply andb_false_r.
Qed.
Lemma printbit_word : forall w x,
  exists t, for_up 0 (wb w) (fun _ st =>
             let (out, temp) := st : string * N in
             o <- printf "%d " (Some (AInt
                    (if N.eqb (N.land temp (2 ^ N.of_nat (wb w - 1))) 0 then 0 else 1)%N)) ;;
             Ok (out ++ o, trunc w (N.shiftl temp 1))) ("", x)
  = Ok (cat (wb w) (fun c => bit_text (N.testbit x (N.of_nat (wb w - 1 - c)))), t).
Proof.
  intros w x.
  match goal with |- exists t, ?comp = _ => assert (H : wp comp (fun r =>
    fst r = cat (wb w) (fun c => bit_text (N.testbit x (N.of_nat (wb w - 1 - c)))))) end.
  { apply wp_for_up with (I := fun c st =>
      fst st = cat c (fun c => bit_text (N.testbit x (N.of_nat (wb w - 1 - c)))) /\
      forall q, (N.of_nat c <= q < N.of_nat (wb w))%N -> N.testbit (snd st) q = N.testbit x (q - N.of_nat c)).
    - lia.
    - split; auto. intros q Hq. rewrite N.sub_0_r. reflexivity.
    - intros c [out temp] _ Hc [H1 H2]. cbn [fst snd] in *.
      rewrite land_pow2_zero, H2 by lia.
      replace (N.of_nat (wb w - 1) - N.of_nat c)%N with (N.of_nat (wb w - 1 - c)) by lia.
      replace (printf "%d " (Some (AInt (if negb (N.testbit x (N.of_nat (wb w - 1 - c))) then 0 else 1)%N)))
        with (Ok (bit_text (N.testbit x (N.of_nat (wb w - 1 - c)))))
        by (destruct (N.testbit x (N.of_nat (wb w - 1 - c))); reflexivity).
      cbn [bind wp fst snd]. split; [rewrite H1; reflexivity|].
      intros q Hq. unfold trunc. rewrite N.mod_pow2_bits_low by (pose proof (wb_le_cb w); lia).
      rewrite N.shiftl_spec_high' by lia. rewrite H2 by lia. f_equal. lia.
    - intros st [H _]. exact H. }
  apply wp_exists in H. destruct H as ([o t] & E & H). exists t. rewrite E. simpl in H.
  rewrite H. reflexivity.
Qed.
Lemma printbit_picture : forall w m, shapeM w m ->
  printbit w m = Ok (bit_picture (dim w) (mbit w m)).
Proof.
  intros w m Hm. unfold printbit, bit_picture.
  rewrite (out_loop_eq (dim w) _ (fun i => cat (dim w) (fun j =>
    if mbit w m i j then "1 " else "0 ") ++ String newline "")); [reflexivity|].
  intros i Hi. rewrite (out_loop_eq (nw w) _ (fun k => cat (wb w) (fun c =>
    bit_text (mbit w m i (wb w * k + c))))).
  - cbn [bind]. rewrite (cat_flat (wb w) (nw w) (fun j => bit_text (mbit w m i j))), <- dim_eq.
    reflexivity.
  - intros k Hk. rewrite (mget_word w) by auto. cbn [bind].
    destruct (printbit_word w (word m i k)) as [t ->]. cbn [bind fst]. f_equal. apply cat_ext.
    intros c Hc. unfold mbit. rewrite div_block, mod_block by auto. reflexivity.
Qed.
