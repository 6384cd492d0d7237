(** Model of test/Accuracy_test.c, the self test of the library.

    [n] is the macro TEST (100000, line 3).  The local variables have no initial value:
    [gm k] and [ga k] are their contents at the start of a test; each loop then works on the
    contents left by the round before.  A test returns whether it printed PASS. *)
From Coq Require Import Arith NArith ZArith List Bool String Ascii.
From Verif Require Import Base Tables Model.
Import ListNotations.

Definition nz (r : N) : bool := negb (N.eqb r 0).

(** bitwise operations, lines 9-35 (4 bits), 37-63, 65-91, 93-119, 121-147, 149-175, 177-203.
    flag_bom4_3 is never changed. *)
Definition acc_bitop (w : width) (gm : nat -> mat) : res bool :=
  m1 <- initM w (gm 0) ;;
  m2 <- identityM w (gm 1) ;;
  m3 <- initM w (gm 2) ;;
  m1 <- for_up 0 (dim w) (fun i m => setbit w m (Z.of_nat i) (Z.of_nat i) 1) m1 ;;
  e1 <- isequalM w m1 m2 ;;
  f2 <- for_ret 0 (dim w) (fun i (_ : unit) =>
          r <- readbit w m1 (Z.of_nat i) (Z.of_nat i) ;;
          if N.eqb r 0 then Ok (inr tt) else Ok (inl tt)) tt ;;
  m1 <- for_up 0 (dim w) (fun i m => flipbit w m (Z.of_nat i) (Z.of_nat i)) m1 ;;
  e2 <- isequalM w m1 m3 ;;
  Ok ((nz e1 && nz e2) && match f2 with inl _ => true | inr _ => false end)%bool.

(** a loop "for(i = 0; i < TEST; i++) {...; if(bad) break;}" whose body yields the new state and
    whether to go on; result: i == TEST, i.e. no break *)
Definition acc_loop {St} (n : nat) (body : St -> res (St * bool)) (st : St) : res (bool * St) :=
  r <- for_ret 0 n (fun _ st =>
         x <- body st ;; let (st', go) := x : St * bool in
         if go then Ok (inl st') else Ok (inr st')) st ;;
  match r with inl st' => Ok (true, st') | inr st' => Ok (false, st') end.

(** the constants of lines 207, 218, 229, 240, 251 *)
Definition acc_num (w : width) : N :=
  match w with W4 => 0x0c | W8 => 0x87 | W16 => 0x8778 | W32 => 0x87788778
             | _ => 0x8778877887788778 end.
(** MatMulNum, lines 206-215, 217-226, 228-237, 239-248, 250-259 *)
Definition acc_mulnum (e : endian) (w : width) (n : nat) (gm : nat -> mat) (s : world)
  : res (bool * world) :=
  r <- acc_loop n (fun st =>
         let '(m1, m2, s) := st : mat * mat * world in
         '(a, b, s') <- genMatpair e w m1 m2 s ;;
         x <- MatMulNum e w a (acc_num w) ;; y <- MatMulNum e w b x ;;
         Ok ((a, b, s'), N.eqb (acc_num w) y)) (gm 0, gm 1, s) ;;
  let (ok, st) := r : bool * (mat * mat * world) in Ok (ok, snd st).

(** MatMulVec, lines 262-273, 275-286, 288-299, 301-312, 314-325, 327-338, 340-351 *)
Definition acc_mulvec (e : endian) (w : width) (n : nat) (gm : nat -> mat) (gv : nat -> vec)
  (s : world) : res (bool * world) :=
  r <- acc_loop n (fun st =>
         let '(m1, m2, (v1, v2, v3), s) := st : mat * mat * (vec * vec * vec) * world in
         '(a, b, s1) <- genMatpair e w m1 m2 s ;;
         '(x, s2) <- randV e w v1 s1 ;;
         y <- MatMulVec e w a x v2 ;; z <- MatMulVec e w b y v3 ;;
         q <- isequalV w x z ;;
         Ok ((a, b, (x, y, z), s2), nz q)) (gm 0, gm 1, (gv 0, gv 1, gv 2), s) ;;
  let (ok, st) := r : bool * (mat * mat * (vec * vec * vec) * world) in Ok (ok, snd st).

(** MatMulMat, lines 354-368, 370-384, 386-400, 402-416, 418-432, 434-448, 450-464 *)
Definition acc_mulmat (e : endian) (w : width) (n : nat) (gm : nat -> mat) (gv : nat -> vec)
  (s : world) : res (bool * world) :=
  r <- acc_loop n (fun st =>
         let '(m1, m2, m3, (v1, v2, v3, v4), s) :=
           st : mat * mat * mat * (vec * vec * vec * vec) * world in
         '(a, s1) <- randM e w m1 s ;;
         '(b, s2) <- randM e w m2 s1 ;;
         '(x, s3) <- randV e w v1 s2 ;;
         y <- MatMulVec e w a x v2 ;; z <- MatMulVec e w b y v3 ;;
         c <- MatMulMat e w b a m3 ;; u <- MatMulVec e w c x v4 ;;
         q <- isequalV w z u ;;
         Ok ((a, b, c, (x, y, z, u), s3), nz q))
         (gm 0, gm 1, gm 2, (gv 0, gv 1, gv 2, gv 3), s) ;;
  let (ok, st) := r : bool * (mat * mat * mat * (vec * vec * vec * vec) * world) in
  Ok (ok, snd st).

(** isinvert and invs, lines 467-480, 482-495, 497-510, 512-525, 527-540, 542-555, 557-570 *)
Definition acc_inv (e : endian) (w : width) (n : nat) (gm : nat -> mat) (s : world)
  : res (bool * world) :=
  id <- identityM w (gm 3) ;;
  r <- acc_loop n (fun st =>
         let '(m1, m2, m3, m5, s) := st : mat * mat * mat * mat * world in
         '(a, b, s1) <- genMatpair e w m1 m2 s ;;
         i1 <- isinvert w a ;;
         if negb (nz i1) then Ok ((a, b, m3, m5, s1), false) else
         i2 <- isinvert w b ;;
         if negb (nz i2) then Ok ((a, b, m3, m5, s1), false) else
         c <- MatMulMat e w a b m3 ;;
         q <- isequalM w c id ;;
         if negb (nz q) then Ok ((a, b, c, m5, s1), false) else
         d <- invs w a m5 ;;
         p <- isequalM w b d ;;
         Ok ((a, b, c, d, s1), nz p)) (gm 0, gm 1, gm 2, gm 4, s) ;;
  let (ok, st) := r : bool * (mat * mat * mat * mat * world) in Ok (ok, snd st).

(** comparison of the elements, e.g. lines 578, 618 *)
Definition acc_same (w : width) (x y : vec) : res bool :=
  for_up 0 (nw w) (fun k b => u <- aget x k ;; v <- aget y k ;; Ok (b && N.eqb u v)%bool) true.

(** genaffinepair and affineU, lines 573-579, 581-587, 589-595, 597-603, 605-611, 613-619; the
    constants are those of acc_num, twice for 128 bits *)
Definition acc_affine (e : endian) (w : width) (ga : nat -> aff) (s : world) : res (bool * world) :=
  let x := repeat (acc_num w) (nw w) in
  '(f, fi, s') <- genaffinepair e w (ga 0) (ga 1) s ;;
  y <- affineU e w f x ;; z <- affineU e w fi y ;;
  b <- acc_same w x z ;; Ok (b, s').

(** line 667 has another constant (14 digits) for 64 bits *)
Definition acc_num2 (w : width) : N :=
  match w with W64 => 0x87877887788778 | _ => acc_num w end.
(** affinemix, lines 622-631, 633-642, 644-653, 655-664, 666-675, 677-686 *)
Definition acc_mix (e : endian) (w : width) (ga : nat -> aff) (s : world) : res (bool * world) :=
  let x := repeat (acc_num2 w) (nw w) in
  '(f1, f2, s1) <- genaffinepair e w (ga 0) (ga 1) s ;;
  '(f3, f4, s2) <- genaffinepair e w (ga 2) (ga 3) s1 ;;
  y <- affineU e w f1 x ;;
  f5 <- affinemix e w f3 f2 (ga 4) ;;
  z <- affineU e w f5 y ;;
  u <- affineU e w f4 z ;;
  b <- acc_same w x u ;; Ok (b, s2).

(** affinecom of identities with the vector of ones, lines 689-738.  The target variables
    acm64_1 and acm128_1 serve several calls; [ga0] is the content before the call, [gm q] the
    content of the matrix of block q, [gt] that of the comparison matrix. *)
Definition acc_com (e : endian) (c : com) (gm : nat -> mat) (gt : mat) (ga0 : aff) : res bool :=
  let n := dim (com_tgt c) / dim (com_src c) in
  id <- identityM (com_tgt c) gt ;;
  fs <- for_up 0 n (fun q l =>
          m <- identityM (com_src c) (gm q) ;;
          Ok (l ++ [mkaff m (repeat (2 ^ N.of_nat (wb (com_src c)) - 1)%N (nw (com_src c)))])) [] ;;
  h <- affinecom e c fs ga0 ;;
  q <- isequalM (com_tgt c) (amat h) id ;;
  b <- acc_same (com_tgt c) (avec h)
         (repeat (2 ^ N.of_nat (wb (com_tgt c)) - 1)%N (nw (com_tgt c))) ;;
  Ok (nz q && b)%bool.

(** ** The program *)

Local Open Scope string_scope.
Definition acc_nl : string := String "010" "".
Definition bitname (w : width) : string :=
  match w with W4 => "4bit" | W8 => "8bit" | W16 => "16bit" | W32 => "32bit" | W64 => "64bit"
             | W128 => "128bit" | W256 => "256bit" end.
Definition comname (c : com) : string :=
  match c with C8to32 => "8to32" | C8to64 => "8to64" | C8to128 => "8to128" | C16to64 => "16to64"
             | C32to128 => "32to128" | C16to128 => "16to128" end.

Record acc_state := mkacc { a_flag : bool; a_out : list string; a_world : world }.
Definition acc_puts (t : string) (st : acc_state) : acc_state :=
  mkacc (a_flag st) (app (a_out st) [t ++ acc_nl]) (a_world st).
(** run a test and print its line; an ERROR clears flag *)
Definition acc_line (name : string) (t : world -> res (bool * world)) (st : acc_state)
  : res acc_state :=
  '(b, s') <- t (a_world st) ;;
  Ok (mkacc (if b : bool then a_flag st else false)
            (app (a_out st) [name ++ (if b : bool then ": PASS" else ": ERROR") ++ acc_nl]) s').
Fixpoint acc_lines {A} (name : A -> string) (t : A -> world -> res (bool * world)) (l : list A)
  (st : acc_state) : res acc_state :=
  match l with
  | nil => Ok st
  | a :: l' => st' <- acc_line (name a) (t a) st ;; acc_lines name t l' st'
  end.
Definition noworld (r : res bool) (s : world) : res (bool * world) := b <- r ;; Ok (b, s).

(** initial contents of the local variables: number of the test, width, number *)
Record locals := mklocals
  { l_mat : nat -> width -> nat -> mat; l_vec : nat -> width -> nat -> vec;
    l_aff : nat -> width -> nat -> aff; l_com : com -> aff;
    l_src : com -> nat -> mat; l_tgt : com -> mat }.

(** main, lines 4-743 *)
Definition accuracy_main (e : endian) (n : nat) (g : locals) (s : world) : res (list string * world) :=
  let st := mkacc true [] s in
  let ws7 := [W4; W8; W16; W32; W64; W128; W256] in
  let ws5 := [W4; W8; W16; W32; W64] in
  let ws6 := [W4; W8; W16; W32; W64; W128] in
  let st := acc_puts "-----bitwise operation (read/set/flip) test-----" st in
  st <- acc_lines bitname (fun w => noworld (acc_bitop w (l_mat g 0 w))) ws7 st ;;
  let st := acc_puts "-----mat mul num test-----" st in
  st <- acc_lines bitname (fun w => acc_mulnum e w n (l_mat g 1 w)) ws5 st ;;
  let st := acc_puts "-----mat mul vec test-----" st in
  st <- acc_lines bitname (fun w => acc_mulvec e w n (l_mat g 2 w) (l_vec g 2 w)) ws7 st ;;
  let st := acc_puts "-----mat mul mat (includes mat transpositon) test-----" st in
  st <- acc_lines bitname (fun w => acc_mulmat e w n (l_mat g 3 w) (l_vec g 3 w)) ws7 st ;;
  let st := acc_puts "-----invertible and inverse test-----" st in
  st <- acc_lines bitname (fun w => acc_inv e w n (l_mat g 4 w)) ws7 st ;;
  let st := acc_puts "-----invertible affine and affine transform test-----" st in
  st <- acc_lines bitname (fun w => acc_affine e w (l_aff g 5 w)) ws6 st ;;
  let st := acc_puts "-----affine mix test-----" st in
  st <- acc_lines bitname (fun w => acc_mix e w (l_aff g 6 w)) ws6 st ;;
  let st := acc_puts "-----affine concatenation test-----" st in
  st <- acc_lines comname
          (fun c => noworld (acc_com e c (l_src g c) (l_tgt g c) (l_com g c)))
          [C8to32; C8to64; C8to128; C16to64; C32to128; C16to128] st ;;
  Ok (app (a_out st) [acc_nl ++ (if a_flag st then "ALL PASS!" else "ERROR!")], a_world st).
