(** Constant tables of src/WBMatrix/WBMatrix.c, copied literally. *)
From Coq Require Import NArith List.
Import ListNotations.
Local Open Scope N_scope.

(** src/WBMatrix/WBMatrix.c:6-18 *)
Definition tab_xor : list N :=
  [ 0; 1; 1; 0; 1; 0; 0; 1; 1; 0; 0; 1; 0; 1; 1; 0; 1; 0; 0; 1; 0; 1; 1; 0; 0; 1; 1; 0; 1; 0; 0; 1;
    1; 0; 0; 1; 0; 1; 1; 0; 0; 1; 1; 0; 1; 0; 0; 1; 0; 1; 1; 0; 1; 0; 0; 1; 1; 0; 0; 1; 0; 1; 1; 0;
    1; 0; 0; 1; 0; 1; 1; 0; 0; 1; 1; 0; 1; 0; 0; 1; 0; 1; 1; 0; 1; 0; 0; 1; 1; 0; 0; 1; 0; 1; 1; 0;
    0; 1; 1; 0; 1; 0; 0; 1; 1; 0; 0; 1; 0; 1; 1; 0; 1; 0; 0; 1; 0; 1; 1; 0; 0; 1; 1; 0; 1; 0; 0; 1;
    1; 0; 0; 1; 0; 1; 1; 0; 0; 1; 1; 0; 1; 0; 0; 1; 0; 1; 1; 0; 1; 0; 0; 1; 1; 0; 0; 1; 0; 1; 1; 0;
    0; 1; 1; 0; 1; 0; 0; 1; 1; 0; 0; 1; 0; 1; 1; 0; 1; 0; 0; 1; 0; 1; 1; 0; 0; 1; 1; 0; 1; 0; 0; 1;
    0; 1; 1; 0; 1; 0; 0; 1; 1; 0; 0; 1; 0; 1; 1; 0; 1; 0; 0; 1; 0; 1; 1; 0; 0; 1; 1; 0; 1; 0; 0; 1;
    1; 0; 0; 1; 0; 1; 1; 0; 0; 1; 1; 0; 1; 0; 0; 1; 0; 1; 1; 0; 1; 0; 0; 1; 1; 0; 0; 1; 0; 1; 1; 0 ].

(** src/WBMatrix/WBMatrix.c:21-33 *)
Definition tab_HW : list N :=
  [ 0; 1; 1; 2; 1; 2; 2; 3; 1; 2; 2; 3; 2; 3; 3; 4; 1; 2; 2; 3; 2; 3; 3; 4; 2; 3; 3; 4; 3; 4; 4; 5;
    1; 2; 2; 3; 2; 3; 3; 4; 2; 3; 3; 4; 3; 4; 4; 5; 2; 3; 3; 4; 3; 4; 4; 5; 3; 4; 4; 5; 4; 5; 5; 6;
    1; 2; 2; 3; 2; 3; 3; 4; 2; 3; 3; 4; 3; 4; 4; 5; 2; 3; 3; 4; 3; 4; 4; 5; 3; 4; 4; 5; 4; 5; 5; 6;
    2; 3; 3; 4; 3; 4; 4; 5; 3; 4; 4; 5; 4; 5; 5; 6; 3; 4; 4; 5; 4; 5; 5; 6; 4; 5; 5; 6; 5; 6; 6; 7;
    1; 2; 2; 3; 2; 3; 3; 4; 2; 3; 3; 4; 3; 4; 4; 5; 2; 3; 3; 4; 3; 4; 4; 5; 3; 4; 4; 5; 4; 5; 5; 6;
    2; 3; 3; 4; 3; 4; 4; 5; 3; 4; 4; 5; 4; 5; 5; 6; 3; 4; 4; 5; 4; 5; 5; 6; 4; 5; 5; 6; 5; 6; 6; 7;
    2; 3; 3; 4; 3; 4; 4; 5; 3; 4; 4; 5; 4; 5; 5; 6; 3; 4; 4; 5; 4; 5; 5; 6; 4; 5; 5; 6; 5; 6; 6; 7;
    3; 4; 4; 5; 4; 5; 5; 6; 4; 5; 5; 6; 5; 6; 6; 7; 4; 5; 5; 6; 5; 6; 6; 7; 5; 6; 6; 7; 6; 7; 7; 8 ].

(** src/WBMatrix/WBMatrix.c:35 *)
Definition idM4 : list N :=
  [ 0x8; 0x4; 0x2; 0x1 ].

(** src/WBMatrix/WBMatrix.c:36 *)
Definition idM8 : list N :=
  [ 0x80; 0x40; 0x20; 0x10; 0x8; 0x4; 0x2; 0x1 ].

(** src/WBMatrix/WBMatrix.c:37 *)
Definition idM16 : list N :=
  [ 0x8000; 0x4000; 0x2000; 0x1000; 0x800; 0x400; 0x200; 0x100;
    0x80; 0x40; 0x20; 0x10; 0x8; 0x4; 0x2; 0x1 ].

(** src/WBMatrix/WBMatrix.c:38 *)
Definition idM32 : list N :=
  [ 0x80000000; 0x40000000; 0x20000000; 0x10000000; 0x8000000; 0x4000000; 0x2000000; 0x1000000;
    0x800000; 0x400000; 0x200000; 0x100000; 0x80000; 0x40000; 0x20000; 0x10000;
    0x8000; 0x4000; 0x2000; 0x1000; 0x800; 0x400; 0x200; 0x100;
    0x80; 0x40; 0x20; 0x10; 0x8; 0x4; 0x2; 0x1 ].

(** src/WBMatrix/WBMatrix.c:39-40 *)
Definition idM64 : list N :=
  [ 0x8000000000000000; 0x4000000000000000; 0x2000000000000000; 0x1000000000000000; 0x800000000000000; 0x400000000000000; 0x200000000000000; 0x100000000000000;
    0x80000000000000; 0x40000000000000; 0x20000000000000; 0x10000000000000; 0x8000000000000; 0x4000000000000; 0x2000000000000; 0x1000000000000;
    0x800000000000; 0x400000000000; 0x200000000000; 0x100000000000; 0x80000000000; 0x40000000000; 0x20000000000; 0x10000000000;
    0x8000000000; 0x4000000000; 0x2000000000; 0x1000000000; 0x800000000; 0x400000000; 0x200000000; 0x100000000;
    0x80000000; 0x40000000; 0x20000000; 0x10000000; 0x8000000; 0x4000000; 0x2000000; 0x1000000;
    0x800000; 0x400000; 0x200000; 0x100000; 0x80000; 0x40000; 0x20000; 0x10000;
    0x8000; 0x4000; 0x2000; 0x1000; 0x800; 0x400; 0x200; 0x100;
    0x80; 0x40; 0x20; 0x10; 0x8; 0x4; 0x2; 0x1 ].

