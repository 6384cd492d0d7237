(** Specification of text output: reading hexadecimal text back, and the picture of a
    bit matrix.  Independent of the printf model. *)
From Coq Require Import Arith NArith List Bool String Ascii.
Import ListNotations.
Local Open Scope string_scope.

Definition newline : ascii := ascii_of_nat 10.

(** f 0 ++ ... ++ f (n-1) *)
Fixpoint cat (n : nat) (f : nat -> string) : string :=
  match n with O => "" | S n' => cat n' f ++ f n' end.

(** The bits of an n x n matrix: a line per row, then an empty line *)
Definition bit_picture (n : nat) (A : nat -> nat -> bool) : string :=
  cat n (fun i => cat n (fun j => if A i j then "1 " else "0 ") ++ String newline "")
  ++ String newline "".

(** ** Reading *)

(** the parts of s between separators *)
Fixpoint split (sep : ascii) (s : string) : list string :=
  match s with
  | "" => [""]
  | String c s' =>
      if Ascii.eqb c sep then "" :: split sep s'
      else match split sep s' with
           | h :: t => String c h :: t
           | [] => [String c ""]
           end
  end.
(** the lines of a text in which every line is closed by a newline *)
Definition lines (s : string) : list string := removelast (split newline s).
Definition fields (s : string) : list string := split " "%char s.

Definition hexdigit (c : ascii) : option N :=
  let n := N_of_ascii c in
  if (N.leb 48 n && N.leb n 57)%bool then Some (n - 48)%N
  else if (N.leb 97 n && N.leb n 102)%bool then Some (n - 87)%N else None.
Fixpoint hexnum (a : N) (s : string) : option N :=
  match s with
  | "" => Some a
  | String c s' => match hexdigit c with Some d => hexnum (16 * a + d) s' | None => None end
  end.
(** 0x followed by at least one digit *)
Definition readhex (s : string) : option N :=
  match s with
  | String "0" (String "x" (String c s')) => hexnum 0 (String c s')
  | _ => None
  end.
(** Numbers of each line *)
Definition readtext (s : string) : list (list (option N)) :=
  map (fun l => map readhex (fields l)) (lines s).
