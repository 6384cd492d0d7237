(** Specification of hexadecimal text, independent of ModelHex.v *)
From Coq Require Import NArith List String Ascii.
Import ListNotations.

(** The characters of a string *)
Definition codes (s : string) : list N := map N_of_ascii (list_ascii_of_string s).
Definition upper : list N := codes "0123456789ABCDEF".
Definition lower : list N := codes "0123456789abcdef".
(** c is a way to write the digit v *)
Definition writes (c v : N) : Prop :=
  (v < 16)%N /\ (nth_error upper (N.to_nat v) = Some c \/ nth_error lower (N.to_nat v) = Some c).
(** Two digits for each byte *)
Inductive hextext : list N -> list N -> Prop :=
| hex_nil : hextext [] []
| hex_cons : forall c c' h l s bs, writes c h -> writes c' l -> hextext s bs ->
    hextext (c :: c' :: s) ((16 * h + l)%N :: bs).
