(** Tables of Compress and Expand, copied from the sources (generated by a script from the text of the files cited). *)
From Coq Require Import ZArith List.
Import ListNotations.
Open Scope Z_scope.
(** hwy/ops/generic_ops-inl.h 5906-6034 *)
Definition table_compress8 : list Z := [
  0; 1; 2; 3; 4; 5; 6; 7; 0; 1; 2; 3; 4; 5; 6; 7; 1; 0; 2; 3; 4; 5; 6; 7; 0; 1; 2; 3; 4; 5; 6; 7;
  2; 0; 1; 3; 4; 5; 6; 7; 0; 2; 1; 3; 4; 5; 6; 7; 1; 2; 0; 3; 4; 5; 6; 7; 0; 1; 2; 3; 4; 5; 6; 7;
  3; 0; 1; 2; 4; 5; 6; 7; 0; 3; 1; 2; 4; 5; 6; 7; 1; 3; 0; 2; 4; 5; 6; 7; 0; 1; 3; 2; 4; 5; 6; 7;
  2; 3; 0; 1; 4; 5; 6; 7; 0; 2; 3; 1; 4; 5; 6; 7; 1; 2; 3; 0; 4; 5; 6; 7; 0; 1; 2; 3; 4; 5; 6; 7;
  4; 0; 1; 2; 3; 5; 6; 7; 0; 4; 1; 2; 3; 5; 6; 7; 1; 4; 0; 2; 3; 5; 6; 7; 0; 1; 4; 2; 3; 5; 6; 7;
  2; 4; 0; 1; 3; 5; 6; 7; 0; 2; 4; 1; 3; 5; 6; 7; 1; 2; 4; 0; 3; 5; 6; 7; 0; 1; 2; 4; 3; 5; 6; 7;
  3; 4; 0; 1; 2; 5; 6; 7; 0; 3; 4; 1; 2; 5; 6; 7; 1; 3; 4; 0; 2; 5; 6; 7; 0; 1; 3; 4; 2; 5; 6; 7;
  2; 3; 4; 0; 1; 5; 6; 7; 0; 2; 3; 4; 1; 5; 6; 7; 1; 2; 3; 4; 0; 5; 6; 7; 0; 1; 2; 3; 4; 5; 6; 7;
  5; 0; 1; 2; 3; 4; 6; 7; 0; 5; 1; 2; 3; 4; 6; 7; 1; 5; 0; 2; 3; 4; 6; 7; 0; 1; 5; 2; 3; 4; 6; 7;
  2; 5; 0; 1; 3; 4; 6; 7; 0; 2; 5; 1; 3; 4; 6; 7; 1; 2; 5; 0; 3; 4; 6; 7; 0; 1; 2; 5; 3; 4; 6; 7;
  3; 5; 0; 1; 2; 4; 6; 7; 0; 3; 5; 1; 2; 4; 6; 7; 1; 3; 5; 0; 2; 4; 6; 7; 0; 1; 3; 5; 2; 4; 6; 7;
  2; 3; 5; 0; 1; 4; 6; 7; 0; 2; 3; 5; 1; 4; 6; 7; 1; 2; 3; 5; 0; 4; 6; 7; 0; 1; 2; 3; 5; 4; 6; 7;
  4; 5; 0; 1; 2; 3; 6; 7; 0; 4; 5; 1; 2; 3; 6; 7; 1; 4; 5; 0; 2; 3; 6; 7; 0; 1; 4; 5; 2; 3; 6; 7;
  2; 4; 5; 0; 1; 3; 6; 7; 0; 2; 4; 5; 1; 3; 6; 7; 1; 2; 4; 5; 0; 3; 6; 7; 0; 1; 2; 4; 5; 3; 6; 7;
  3; 4; 5; 0; 1; 2; 6; 7; 0; 3; 4; 5; 1; 2; 6; 7; 1; 3; 4; 5; 0; 2; 6; 7; 0; 1; 3; 4; 5; 2; 6; 7;
  2; 3; 4; 5; 0; 1; 6; 7; 0; 2; 3; 4; 5; 1; 6; 7; 1; 2; 3; 4; 5; 0; 6; 7; 0; 1; 2; 3; 4; 5; 6; 7;
  6; 0; 1; 2; 3; 4; 5; 7; 0; 6; 1; 2; 3; 4; 5; 7; 1; 6; 0; 2; 3; 4; 5; 7; 0; 1; 6; 2; 3; 4; 5; 7;
  2; 6; 0; 1; 3; 4; 5; 7; 0; 2; 6; 1; 3; 4; 5; 7; 1; 2; 6; 0; 3; 4; 5; 7; 0; 1; 2; 6; 3; 4; 5; 7;
  3; 6; 0; 1; 2; 4; 5; 7; 0; 3; 6; 1; 2; 4; 5; 7; 1; 3; 6; 0; 2; 4; 5; 7; 0; 1; 3; 6; 2; 4; 5; 7;
  2; 3; 6; 0; 1; 4; 5; 7; 0; 2; 3; 6; 1; 4; 5; 7; 1; 2; 3; 6; 0; 4; 5; 7; 0; 1; 2; 3; 6; 4; 5; 7;
  4; 6; 0; 1; 2; 3; 5; 7; 0; 4; 6; 1; 2; 3; 5; 7; 1; 4; 6; 0; 2; 3; 5; 7; 0; 1; 4; 6; 2; 3; 5; 7;
  2; 4; 6; 0; 1; 3; 5; 7; 0; 2; 4; 6; 1; 3; 5; 7; 1; 2; 4; 6; 0; 3; 5; 7; 0; 1; 2; 4; 6; 3; 5; 7;
  3; 4; 6; 0; 1; 2; 5; 7; 0; 3; 4; 6; 1; 2; 5; 7; 1; 3; 4; 6; 0; 2; 5; 7; 0; 1; 3; 4; 6; 2; 5; 7;
  2; 3; 4; 6; 0; 1; 5; 7; 0; 2; 3; 4; 6; 1; 5; 7; 1; 2; 3; 4; 6; 0; 5; 7; 0; 1; 2; 3; 4; 6; 5; 7;
  5; 6; 0; 1; 2; 3; 4; 7; 0; 5; 6; 1; 2; 3; 4; 7; 1; 5; 6; 0; 2; 3; 4; 7; 0; 1; 5; 6; 2; 3; 4; 7;
  2; 5; 6; 0; 1; 3; 4; 7; 0; 2; 5; 6; 1; 3; 4; 7; 1; 2; 5; 6; 0; 3; 4; 7; 0; 1; 2; 5; 6; 3; 4; 7;
  3; 5; 6; 0; 1; 2; 4; 7; 0; 3; 5; 6; 1; 2; 4; 7; 1; 3; 5; 6; 0; 2; 4; 7; 0; 1; 3; 5; 6; 2; 4; 7;
  2; 3; 5; 6; 0; 1; 4; 7; 0; 2; 3; 5; 6; 1; 4; 7; 1; 2; 3; 5; 6; 0; 4; 7; 0; 1; 2; 3; 5; 6; 4; 7;
  4; 5; 6; 0; 1; 2; 3; 7; 0; 4; 5; 6; 1; 2; 3; 7; 1; 4; 5; 6; 0; 2; 3; 7; 0; 1; 4; 5; 6; 2; 3; 7;
  2; 4; 5; 6; 0; 1; 3; 7; 0; 2; 4; 5; 6; 1; 3; 7; 1; 2; 4; 5; 6; 0; 3; 7; 0; 1; 2; 4; 5; 6; 3; 7;
  3; 4; 5; 6; 0; 1; 2; 7; 0; 3; 4; 5; 6; 1; 2; 7; 1; 3; 4; 5; 6; 0; 2; 7; 0; 1; 3; 4; 5; 6; 2; 7;
  2; 3; 4; 5; 6; 0; 1; 7; 0; 2; 3; 4; 5; 6; 1; 7; 1; 2; 3; 4; 5; 6; 0; 7; 0; 1; 2; 3; 4; 5; 6; 7;
  7; 0; 1; 2; 3; 4; 5; 6; 0; 7; 1; 2; 3; 4; 5; 6; 1; 7; 0; 2; 3; 4; 5; 6; 0; 1; 7; 2; 3; 4; 5; 6;
  2; 7; 0; 1; 3; 4; 5; 6; 0; 2; 7; 1; 3; 4; 5; 6; 1; 2; 7; 0; 3; 4; 5; 6; 0; 1; 2; 7; 3; 4; 5; 6;
  3; 7; 0; 1; 2; 4; 5; 6; 0; 3; 7; 1; 2; 4; 5; 6; 1; 3; 7; 0; 2; 4; 5; 6; 0; 1; 3; 7; 2; 4; 5; 6;
  2; 3; 7; 0; 1; 4; 5; 6; 0; 2; 3; 7; 1; 4; 5; 6; 1; 2; 3; 7; 0; 4; 5; 6; 0; 1; 2; 3; 7; 4; 5; 6;
  4; 7; 0; 1; 2; 3; 5; 6; 0; 4; 7; 1; 2; 3; 5; 6; 1; 4; 7; 0; 2; 3; 5; 6; 0; 1; 4; 7; 2; 3; 5; 6;
  2; 4; 7; 0; 1; 3; 5; 6; 0; 2; 4; 7; 1; 3; 5; 6; 1; 2; 4; 7; 0; 3; 5; 6; 0; 1; 2; 4; 7; 3; 5; 6;
  3; 4; 7; 0; 1; 2; 5; 6; 0; 3; 4; 7; 1; 2; 5; 6; 1; 3; 4; 7; 0; 2; 5; 6; 0; 1; 3; 4; 7; 2; 5; 6;
  2; 3; 4; 7; 0; 1; 5; 6; 0; 2; 3; 4; 7; 1; 5; 6; 1; 2; 3; 4; 7; 0; 5; 6; 0; 1; 2; 3; 4; 7; 5; 6;
  5; 7; 0; 1; 2; 3; 4; 6; 0; 5; 7; 1; 2; 3; 4; 6; 1; 5; 7; 0; 2; 3; 4; 6; 0; 1; 5; 7; 2; 3; 4; 6;
  2; 5; 7; 0; 1; 3; 4; 6; 0; 2; 5; 7; 1; 3; 4; 6; 1; 2; 5; 7; 0; 3; 4; 6; 0; 1; 2; 5; 7; 3; 4; 6;
  3; 5; 7; 0; 1; 2; 4; 6; 0; 3; 5; 7; 1; 2; 4; 6; 1; 3; 5; 7; 0; 2; 4; 6; 0; 1; 3; 5; 7; 2; 4; 6;
  2; 3; 5; 7; 0; 1; 4; 6; 0; 2; 3; 5; 7; 1; 4; 6; 1; 2; 3; 5; 7; 0; 4; 6; 0; 1; 2; 3; 5; 7; 4; 6;
  4; 5; 7; 0; 1; 2; 3; 6; 0; 4; 5; 7; 1; 2; 3; 6; 1; 4; 5; 7; 0; 2; 3; 6; 0; 1; 4; 5; 7; 2; 3; 6;
  2; 4; 5; 7; 0; 1; 3; 6; 0; 2; 4; 5; 7; 1; 3; 6; 1; 2; 4; 5; 7; 0; 3; 6; 0; 1; 2; 4; 5; 7; 3; 6;
  3; 4; 5; 7; 0; 1; 2; 6; 0; 3; 4; 5; 7; 1; 2; 6; 1; 3; 4; 5; 7; 0; 2; 6; 0; 1; 3; 4; 5; 7; 2; 6;
  2; 3; 4; 5; 7; 0; 1; 6; 0; 2; 3; 4; 5; 7; 1; 6; 1; 2; 3; 4; 5; 7; 0; 6; 0; 1; 2; 3; 4; 5; 7; 6;
  6; 7; 0; 1; 2; 3; 4; 5; 0; 6; 7; 1; 2; 3; 4; 5; 1; 6; 7; 0; 2; 3; 4; 5; 0; 1; 6; 7; 2; 3; 4; 5;
  2; 6; 7; 0; 1; 3; 4; 5; 0; 2; 6; 7; 1; 3; 4; 5; 1; 2; 6; 7; 0; 3; 4; 5; 0; 1; 2; 6; 7; 3; 4; 5;
  3; 6; 7; 0; 1; 2; 4; 5; 0; 3; 6; 7; 1; 2; 4; 5; 1; 3; 6; 7; 0; 2; 4; 5; 0; 1; 3; 6; 7; 2; 4; 5;
  2; 3; 6; 7; 0; 1; 4; 5; 0; 2; 3; 6; 7; 1; 4; 5; 1; 2; 3; 6; 7; 0; 4; 5; 0; 1; 2; 3; 6; 7; 4; 5;
  4; 6; 7; 0; 1; 2; 3; 5; 0; 4; 6; 7; 1; 2; 3; 5; 1; 4; 6; 7; 0; 2; 3; 5; 0; 1; 4; 6; 7; 2; 3; 5;
  2; 4; 6; 7; 0; 1; 3; 5; 0; 2; 4; 6; 7; 1; 3; 5; 1; 2; 4; 6; 7; 0; 3; 5; 0; 1; 2; 4; 6; 7; 3; 5;
  3; 4; 6; 7; 0; 1; 2; 5; 0; 3; 4; 6; 7; 1; 2; 5; 1; 3; 4; 6; 7; 0; 2; 5; 0; 1; 3; 4; 6; 7; 2; 5;
  2; 3; 4; 6; 7; 0; 1; 5; 0; 2; 3; 4; 6; 7; 1; 5; 1; 2; 3; 4; 6; 7; 0; 5; 0; 1; 2; 3; 4; 6; 7; 5;
  5; 6; 7; 0; 1; 2; 3; 4; 0; 5; 6; 7; 1; 2; 3; 4; 1; 5; 6; 7; 0; 2; 3; 4; 0; 1; 5; 6; 7; 2; 3; 4;
  2; 5; 6; 7; 0; 1; 3; 4; 0; 2; 5; 6; 7; 1; 3; 4; 1; 2; 5; 6; 7; 0; 3; 4; 0; 1; 2; 5; 6; 7; 3; 4;
  3; 5; 6; 7; 0; 1; 2; 4; 0; 3; 5; 6; 7; 1; 2; 4; 1; 3; 5; 6; 7; 0; 2; 4; 0; 1; 3; 5; 6; 7; 2; 4;
  2; 3; 5; 6; 7; 0; 1; 4; 0; 2; 3; 5; 6; 7; 1; 4; 1; 2; 3; 5; 6; 7; 0; 4; 0; 1; 2; 3; 5; 6; 7; 4;
  4; 5; 6; 7; 0; 1; 2; 3; 0; 4; 5; 6; 7; 1; 2; 3; 1; 4; 5; 6; 7; 0; 2; 3; 0; 1; 4; 5; 6; 7; 2; 3;
  2; 4; 5; 6; 7; 0; 1; 3; 0; 2; 4; 5; 6; 7; 1; 3; 1; 2; 4; 5; 6; 7; 0; 3; 0; 1; 2; 4; 5; 6; 7; 3;
  3; 4; 5; 6; 7; 0; 1; 2; 0; 3; 4; 5; 6; 7; 1; 2; 1; 3; 4; 5; 6; 7; 0; 2; 0; 1; 3; 4; 5; 6; 7; 2;
  2; 3; 4; 5; 6; 7; 0; 1; 0; 2; 3; 4; 5; 6; 7; 1; 1; 2; 3; 4; 5; 6; 7; 0; 0; 1; 2; 3; 4; 5; 6; 7].
(** hwy/ops/generic_ops-inl.h 6106-6363 *)
Definition table_expand8 : list Z := [
  128; 128; 128; 128; 128; 128; 128; 128; 0; 128; 128; 128; 128; 128; 128; 128; 128; 0; 128; 128; 128; 128; 128; 128; 0; 1; 128; 128; 128; 128; 128; 128;
  128; 128; 0; 128; 128; 128; 128; 128; 0; 128; 1; 128; 128; 128; 128; 128; 128; 0; 1; 128; 128; 128; 128; 128; 0; 1; 2; 128; 128; 128; 128; 128;
  128; 128; 128; 0; 128; 128; 128; 128; 0; 128; 128; 1; 128; 128; 128; 128; 128; 0; 128; 1; 128; 128; 128; 128; 0; 1; 128; 2; 128; 128; 128; 128;
  128; 128; 0; 1; 128; 128; 128; 128; 0; 128; 1; 2; 128; 128; 128; 128; 128; 0; 1; 2; 128; 128; 128; 128; 0; 1; 2; 3; 128; 128; 128; 128;
  128; 128; 128; 128; 0; 128; 128; 128; 0; 128; 128; 128; 1; 128; 128; 128; 128; 0; 128; 128; 1; 128; 128; 128; 0; 1; 128; 128; 2; 128; 128; 128;
  128; 128; 0; 128; 1; 128; 128; 128; 0; 128; 1; 128; 2; 128; 128; 128; 128; 0; 1; 128; 2; 128; 128; 128; 0; 1; 2; 128; 3; 128; 128; 128;
  128; 128; 128; 0; 1; 128; 128; 128; 0; 128; 128; 1; 2; 128; 128; 128; 128; 0; 128; 1; 2; 128; 128; 128; 0; 1; 128; 2; 3; 128; 128; 128;
  128; 128; 0; 1; 2; 128; 128; 128; 0; 128; 1; 2; 3; 128; 128; 128; 128; 0; 1; 2; 3; 128; 128; 128; 0; 1; 2; 3; 4; 128; 128; 128;
  128; 128; 128; 128; 128; 0; 128; 128; 0; 128; 128; 128; 128; 1; 128; 128; 128; 0; 128; 128; 128; 1; 128; 128; 0; 1; 128; 128; 128; 2; 128; 128;
  128; 128; 0; 128; 128; 1; 128; 128; 0; 128; 1; 128; 128; 2; 128; 128; 128; 0; 1; 128; 128; 2; 128; 128; 0; 1; 2; 128; 128; 3; 128; 128;
  128; 128; 128; 0; 128; 1; 128; 128; 0; 128; 128; 1; 128; 2; 128; 128; 128; 0; 128; 1; 128; 2; 128; 128; 0; 1; 128; 2; 128; 3; 128; 128;
  128; 128; 0; 1; 128; 2; 128; 128; 0; 128; 1; 2; 128; 3; 128; 128; 128; 0; 1; 2; 128; 3; 128; 128; 0; 1; 2; 3; 128; 4; 128; 128;
  128; 128; 128; 128; 0; 1; 128; 128; 0; 128; 128; 128; 1; 2; 128; 128; 128; 0; 128; 128; 1; 2; 128; 128; 0; 1; 128; 128; 2; 3; 128; 128;
  128; 128; 0; 128; 1; 2; 128; 128; 0; 128; 1; 128; 2; 3; 128; 128; 128; 0; 1; 128; 2; 3; 128; 128; 0; 1; 2; 128; 3; 4; 128; 128;
  128; 128; 128; 0; 1; 2; 128; 128; 0; 128; 128; 1; 2; 3; 128; 128; 128; 0; 128; 1; 2; 3; 128; 128; 0; 1; 128; 2; 3; 4; 128; 128;
  128; 128; 0; 1; 2; 3; 128; 128; 0; 128; 1; 2; 3; 4; 128; 128; 128; 0; 1; 2; 3; 4; 128; 128; 0; 1; 2; 3; 4; 5; 128; 128;
  128; 128; 128; 128; 128; 128; 0; 128; 0; 128; 128; 128; 128; 128; 1; 128; 128; 0; 128; 128; 128; 128; 1; 128; 0; 1; 128; 128; 128; 128; 2; 128;
  128; 128; 0; 128; 128; 128; 1; 128; 0; 128; 1; 128; 128; 128; 2; 128; 128; 0; 1; 128; 128; 128; 2; 128; 0; 1; 2; 128; 128; 128; 3; 128;
  128; 128; 128; 0; 128; 128; 1; 128; 0; 128; 128; 1; 128; 128; 2; 128; 128; 0; 128; 1; 128; 128; 2; 128; 0; 1; 128; 2; 128; 128; 3; 128;
  128; 128; 0; 1; 128; 128; 2; 128; 0; 128; 1; 2; 128; 128; 3; 128; 128; 0; 1; 2; 128; 128; 3; 128; 0; 1; 2; 3; 128; 128; 4; 128;
  128; 128; 128; 128; 0; 128; 1; 128; 0; 128; 128; 128; 1; 128; 2; 128; 128; 0; 128; 128; 1; 128; 2; 128; 0; 1; 128; 128; 2; 128; 3; 128;
  128; 128; 0; 128; 1; 128; 2; 128; 0; 128; 1; 128; 2; 128; 3; 128; 128; 0; 1; 128; 2; 128; 3; 128; 0; 1; 2; 128; 3; 128; 4; 128;
  128; 128; 128; 0; 1; 128; 2; 128; 0; 128; 128; 1; 2; 128; 3; 128; 128; 0; 128; 1; 2; 128; 3; 128; 0; 1; 128; 2; 3; 128; 4; 128;
  128; 128; 0; 1; 2; 128; 3; 128; 0; 128; 1; 2; 3; 128; 4; 128; 128; 0; 1; 2; 3; 128; 4; 128; 0; 1; 2; 3; 4; 128; 5; 128;
  128; 128; 128; 128; 128; 0; 1; 128; 0; 128; 128; 128; 128; 1; 2; 128; 128; 0; 128; 128; 128; 1; 2; 128; 0; 1; 128; 128; 128; 2; 3; 128;
  128; 128; 0; 128; 128; 1; 2; 128; 0; 128; 1; 128; 128; 2; 3; 128; 128; 0; 1; 128; 128; 2; 3; 128; 0; 1; 2; 128; 128; 3; 4; 128;
  128; 128; 128; 0; 128; 1; 2; 128; 0; 128; 128; 1; 128; 2; 3; 128; 128; 0; 128; 1; 128; 2; 3; 128; 0; 1; 128; 2; 128; 3; 4; 128;
  128; 128; 0; 1; 128; 2; 3; 128; 0; 128; 1; 2; 128; 3; 4; 128; 128; 0; 1; 2; 128; 3; 4; 128; 0; 1; 2; 3; 128; 4; 5; 128;
  128; 128; 128; 128; 0; 1; 2; 128; 0; 128; 128; 128; 1; 2; 3; 128; 128; 0; 128; 128; 1; 2; 3; 128; 0; 1; 128; 128; 2; 3; 4; 128;
  128; 128; 0; 128; 1; 2; 3; 128; 0; 128; 1; 128; 2; 3; 4; 128; 128; 0; 1; 128; 2; 3; 4; 128; 0; 1; 2; 128; 3; 4; 5; 128;
  128; 128; 128; 0; 1; 2; 3; 128; 0; 128; 128; 1; 2; 3; 4; 128; 128; 0; 128; 1; 2; 3; 4; 128; 0; 1; 128; 2; 3; 4; 5; 128;
  128; 128; 0; 1; 2; 3; 4; 128; 0; 128; 1; 2; 3; 4; 5; 128; 128; 0; 1; 2; 3; 4; 5; 128; 0; 1; 2; 3; 4; 5; 6; 128;
  128; 128; 128; 128; 128; 128; 128; 0; 0; 128; 128; 128; 128; 128; 128; 1; 128; 0; 128; 128; 128; 128; 128; 1; 0; 1; 128; 128; 128; 128; 128; 2;
  128; 128; 0; 128; 128; 128; 128; 1; 0; 128; 1; 128; 128; 128; 128; 2; 128; 0; 1; 128; 128; 128; 128; 2; 0; 1; 2; 128; 128; 128; 128; 3;
  128; 128; 128; 0; 128; 128; 128; 1; 0; 128; 128; 1; 128; 128; 128; 2; 128; 0; 128; 1; 128; 128; 128; 2; 0; 1; 128; 2; 128; 128; 128; 3;
  128; 128; 0; 1; 128; 128; 128; 2; 0; 128; 1; 2; 128; 128; 128; 3; 128; 0; 1; 2; 128; 128; 128; 3; 0; 1; 2; 3; 128; 128; 128; 4;
  128; 128; 128; 128; 0; 128; 128; 1; 0; 128; 128; 128; 1; 128; 128; 2; 128; 0; 128; 128; 1; 128; 128; 2; 0; 1; 128; 128; 2; 128; 128; 3;
  128; 128; 0; 128; 1; 128; 128; 2; 0; 128; 1; 128; 2; 128; 128; 3; 128; 0; 1; 128; 2; 128; 128; 3; 0; 1; 2; 128; 3; 128; 128; 4;
  128; 128; 128; 0; 1; 128; 128; 2; 0; 128; 128; 1; 2; 128; 128; 3; 128; 0; 128; 1; 2; 128; 128; 3; 0; 1; 128; 2; 3; 128; 128; 4;
  128; 128; 0; 1; 2; 128; 128; 3; 0; 128; 1; 2; 3; 128; 128; 4; 128; 0; 1; 2; 3; 128; 128; 4; 0; 1; 2; 3; 4; 128; 128; 5;
  128; 128; 128; 128; 128; 0; 128; 1; 0; 128; 128; 128; 128; 1; 128; 2; 128; 0; 128; 128; 128; 1; 128; 2; 0; 1; 128; 128; 128; 2; 128; 3;
  128; 128; 0; 128; 128; 1; 128; 2; 0; 128; 1; 128; 128; 2; 128; 3; 128; 0; 1; 128; 128; 2; 128; 3; 0; 1; 2; 128; 128; 3; 128; 4;
  128; 128; 128; 0; 128; 1; 128; 2; 0; 128; 128; 1; 128; 2; 128; 3; 128; 0; 128; 1; 128; 2; 128; 3; 0; 1; 128; 2; 128; 3; 128; 4;
  128; 128; 0; 1; 128; 2; 128; 3; 0; 128; 1; 2; 128; 3; 128; 4; 128; 0; 1; 2; 128; 3; 128; 4; 0; 1; 2; 3; 128; 4; 128; 5;
  128; 128; 128; 128; 0; 1; 128; 2; 0; 128; 128; 128; 1; 2; 128; 3; 128; 0; 128; 128; 1; 2; 128; 3; 0; 1; 128; 128; 2; 3; 128; 4;
  128; 128; 0; 128; 1; 2; 128; 3; 0; 128; 1; 128; 2; 3; 128; 4; 128; 0; 1; 128; 2; 3; 128; 4; 0; 1; 2; 128; 3; 4; 128; 5;
  128; 128; 128; 0; 1; 2; 128; 3; 0; 128; 128; 1; 2; 3; 128; 4; 128; 0; 128; 1; 2; 3; 128; 4; 0; 1; 128; 2; 3; 4; 128; 5;
  128; 128; 0; 1; 2; 3; 128; 4; 0; 128; 1; 2; 3; 4; 128; 5; 128; 0; 1; 2; 3; 4; 128; 5; 0; 1; 2; 3; 4; 5; 128; 6;
  128; 128; 128; 128; 128; 128; 0; 1; 0; 128; 128; 128; 128; 128; 1; 2; 128; 0; 128; 128; 128; 128; 1; 2; 0; 1; 128; 128; 128; 128; 2; 3;
  128; 128; 0; 128; 128; 128; 1; 2; 0; 128; 1; 128; 128; 128; 2; 3; 128; 0; 1; 128; 128; 128; 2; 3; 0; 1; 2; 128; 128; 128; 3; 4;
  128; 128; 128; 0; 128; 128; 1; 2; 0; 128; 128; 1; 128; 128; 2; 3; 128; 0; 128; 1; 128; 128; 2; 3; 0; 1; 128; 2; 128; 128; 3; 4;
  128; 128; 0; 1; 128; 128; 2; 3; 0; 128; 1; 2; 128; 128; 3; 4; 128; 0; 1; 2; 128; 128; 3; 4; 0; 1; 2; 3; 128; 128; 4; 5;
  128; 128; 128; 128; 0; 128; 1; 2; 0; 128; 128; 128; 1; 128; 2; 3; 128; 0; 128; 128; 1; 128; 2; 3; 0; 1; 128; 128; 2; 128; 3; 4;
  128; 128; 0; 128; 1; 128; 2; 3; 0; 128; 1; 128; 2; 128; 3; 4; 128; 0; 1; 128; 2; 128; 3; 4; 0; 1; 2; 128; 3; 128; 4; 5;
  128; 128; 128; 0; 1; 128; 2; 3; 0; 128; 128; 1; 2; 128; 3; 4; 128; 0; 128; 1; 2; 128; 3; 4; 0; 1; 128; 2; 3; 128; 4; 5;
  128; 128; 0; 1; 2; 128; 3; 4; 0; 128; 1; 2; 3; 128; 4; 5; 128; 0; 1; 2; 3; 128; 4; 5; 0; 1; 2; 3; 4; 128; 5; 6;
  128; 128; 128; 128; 128; 0; 1; 2; 0; 128; 128; 128; 128; 1; 2; 3; 128; 0; 128; 128; 128; 1; 2; 3; 0; 1; 128; 128; 128; 2; 3; 4;
  128; 128; 0; 128; 128; 1; 2; 3; 0; 128; 1; 128; 128; 2; 3; 4; 128; 0; 1; 128; 128; 2; 3; 4; 0; 1; 2; 128; 128; 3; 4; 5;
  128; 128; 128; 0; 128; 1; 2; 3; 0; 128; 128; 1; 128; 2; 3; 4; 128; 0; 128; 1; 128; 2; 3; 4; 0; 1; 128; 2; 128; 3; 4; 5;
  128; 128; 0; 1; 128; 2; 3; 4; 0; 128; 1; 2; 128; 3; 4; 5; 128; 0; 1; 2; 128; 3; 4; 5; 0; 1; 2; 3; 128; 4; 5; 6;
  128; 128; 128; 128; 0; 1; 2; 3; 0; 128; 128; 128; 1; 2; 3; 4; 128; 0; 128; 128; 1; 2; 3; 4; 0; 1; 128; 128; 2; 3; 4; 5;
  128; 128; 0; 128; 1; 2; 3; 4; 0; 128; 1; 128; 2; 3; 4; 5; 128; 0; 1; 128; 2; 3; 4; 5; 0; 1; 2; 128; 3; 4; 5; 6;
  128; 128; 128; 0; 1; 2; 3; 4; 0; 128; 128; 1; 2; 3; 4; 5; 128; 0; 128; 1; 2; 3; 4; 5; 0; 1; 128; 2; 3; 4; 5; 6;
  128; 128; 0; 1; 2; 3; 4; 5; 0; 128; 1; 2; 3; 4; 5; 6; 128; 0; 1; 2; 3; 4; 5; 6; 0; 1; 2; 3; 4; 5; 6; 7].
(** hwy/ops/generic_ops-inl.h 6425-6682 *)
Definition table_expand16 : list Z := [
  128; 128; 128; 128; 128; 128; 128; 128; 0; 128; 128; 128; 128; 128; 128; 128; 128; 0; 128; 128; 128; 128; 128; 128; 0; 2; 128; 128; 128; 128; 128; 128;
  128; 128; 0; 128; 128; 128; 128; 128; 0; 128; 2; 128; 128; 128; 128; 128; 128; 0; 2; 128; 128; 128; 128; 128; 0; 2; 4; 128; 128; 128; 128; 128;
  128; 128; 128; 0; 128; 128; 128; 128; 0; 128; 128; 2; 128; 128; 128; 128; 128; 0; 128; 2; 128; 128; 128; 128; 0; 2; 128; 4; 128; 128; 128; 128;
  128; 128; 0; 2; 128; 128; 128; 128; 0; 128; 2; 4; 128; 128; 128; 128; 128; 0; 2; 4; 128; 128; 128; 128; 0; 2; 4; 6; 128; 128; 128; 128;
  128; 128; 128; 128; 0; 128; 128; 128; 0; 128; 128; 128; 2; 128; 128; 128; 128; 0; 128; 128; 2; 128; 128; 128; 0; 2; 128; 128; 4; 128; 128; 128;
  128; 128; 0; 128; 2; 128; 128; 128; 0; 128; 2; 128; 4; 128; 128; 128; 128; 0; 2; 128; 4; 128; 128; 128; 0; 2; 4; 128; 6; 128; 128; 128;
  128; 128; 128; 0; 2; 128; 128; 128; 0; 128; 128; 2; 4; 128; 128; 128; 128; 0; 128; 2; 4; 128; 128; 128; 0; 2; 128; 4; 6; 128; 128; 128;
  128; 128; 0; 2; 4; 128; 128; 128; 0; 128; 2; 4; 6; 128; 128; 128; 128; 0; 2; 4; 6; 128; 128; 128; 0; 2; 4; 6; 8; 128; 128; 128;
  128; 128; 128; 128; 128; 0; 128; 128; 0; 128; 128; 128; 128; 2; 128; 128; 128; 0; 128; 128; 128; 2; 128; 128; 0; 2; 128; 128; 128; 4; 128; 128;
  128; 128; 0; 128; 128; 2; 128; 128; 0; 128; 2; 128; 128; 4; 128; 128; 128; 0; 2; 128; 128; 4; 128; 128; 0; 2; 4; 128; 128; 6; 128; 128;
  128; 128; 128; 0; 128; 2; 128; 128; 0; 128; 128; 2; 128; 4; 128; 128; 128; 0; 128; 2; 128; 4; 128; 128; 0; 2; 128; 4; 128; 6; 128; 128;
  128; 128; 0; 2; 128; 4; 128; 128; 0; 128; 2; 4; 128; 6; 128; 128; 128; 0; 2; 4; 128; 6; 128; 128; 0; 2; 4; 6; 128; 8; 128; 128;
  128; 128; 128; 128; 0; 2; 128; 128; 0; 128; 128; 128; 2; 4; 128; 128; 128; 0; 128; 128; 2; 4; 128; 128; 0; 2; 128; 128; 4; 6; 128; 128;
  128; 128; 0; 128; 2; 4; 128; 128; 0; 128; 2; 128; 4; 6; 128; 128; 128; 0; 2; 128; 4; 6; 128; 128; 0; 2; 4; 128; 6; 8; 128; 128;
  128; 128; 128; 0; 2; 4; 128; 128; 0; 128; 128; 2; 4; 6; 128; 128; 128; 0; 128; 2; 4; 6; 128; 128; 0; 2; 128; 4; 6; 8; 128; 128;
  128; 128; 0; 2; 4; 6; 128; 128; 0; 128; 2; 4; 6; 8; 128; 128; 128; 0; 2; 4; 6; 8; 128; 128; 0; 2; 4; 6; 8; 10; 128; 128;
  128; 128; 128; 128; 128; 128; 0; 128; 0; 128; 128; 128; 128; 128; 2; 128; 128; 0; 128; 128; 128; 128; 2; 128; 0; 2; 128; 128; 128; 128; 4; 128;
  128; 128; 0; 128; 128; 128; 2; 128; 0; 128; 2; 128; 128; 128; 4; 128; 128; 0; 2; 128; 128; 128; 4; 128; 0; 2; 4; 128; 128; 128; 6; 128;
  128; 128; 128; 0; 128; 128; 2; 128; 0; 128; 128; 2; 128; 128; 4; 128; 128; 0; 128; 2; 128; 128; 4; 128; 0; 2; 128; 4; 128; 128; 6; 128;
  128; 128; 0; 2; 128; 128; 4; 128; 0; 128; 2; 4; 128; 128; 6; 128; 128; 0; 2; 4; 128; 128; 6; 128; 0; 2; 4; 6; 128; 128; 8; 128;
  128; 128; 128; 128; 0; 128; 2; 128; 0; 128; 128; 128; 2; 128; 4; 128; 128; 0; 128; 128; 2; 128; 4; 128; 0; 2; 128; 128; 4; 128; 6; 128;
  128; 128; 0; 128; 2; 128; 4; 128; 0; 128; 2; 128; 4; 128; 6; 128; 128; 0; 2; 128; 4; 128; 6; 128; 0; 2; 4; 128; 6; 128; 8; 128;
  128; 128; 128; 0; 2; 128; 4; 128; 0; 128; 128; 2; 4; 128; 6; 128; 128; 0; 128; 2; 4; 128; 6; 128; 0; 2; 128; 4; 6; 128; 8; 128;
  128; 128; 0; 2; 4; 128; 6; 128; 0; 128; 2; 4; 6; 128; 8; 128; 128; 0; 2; 4; 6; 128; 8; 128; 0; 2; 4; 6; 8; 128; 10; 128;
  128; 128; 128; 128; 128; 0; 2; 128; 0; 128; 128; 128; 128; 2; 4; 128; 128; 0; 128; 128; 128; 2; 4; 128; 0; 2; 128; 128; 128; 4; 6; 128;
  128; 128; 0; 128; 128; 2; 4; 128; 0; 128; 2; 128; 128; 4; 6; 128; 128; 0; 2; 128; 128; 4; 6; 128; 0; 2; 4; 128; 128; 6; 8; 128;
  128; 128; 128; 0; 128; 2; 4; 128; 0; 128; 128; 2; 128; 4; 6; 128; 128; 0; 128; 2; 128; 4; 6; 128; 0; 2; 128; 4; 128; 6; 8; 128;
  128; 128; 0; 2; 128; 4; 6; 128; 0; 128; 2; 4; 128; 6; 8; 128; 128; 0; 2; 4; 128; 6; 8; 128; 0; 2; 4; 6; 128; 8; 10; 128;
  128; 128; 128; 128; 0; 2; 4; 128; 0; 128; 128; 128; 2; 4; 6; 128; 128; 0; 128; 128; 2; 4; 6; 128; 0; 2; 128; 128; 4; 6; 8; 128;
  128; 128; 0; 128; 2; 4; 6; 128; 0; 128; 2; 128; 4; 6; 8; 128; 128; 0; 2; 128; 4; 6; 8; 128; 0; 2; 4; 128; 6; 8; 10; 128;
  128; 128; 128; 0; 2; 4; 6; 128; 0; 128; 128; 2; 4; 6; 8; 128; 128; 0; 128; 2; 4; 6; 8; 128; 0; 2; 128; 4; 6; 8; 10; 128;
  128; 128; 0; 2; 4; 6; 8; 128; 0; 128; 2; 4; 6; 8; 10; 128; 128; 0; 2; 4; 6; 8; 10; 128; 0; 2; 4; 6; 8; 10; 12; 128;
  128; 128; 128; 128; 128; 128; 128; 0; 0; 128; 128; 128; 128; 128; 128; 2; 128; 0; 128; 128; 128; 128; 128; 2; 0; 2; 128; 128; 128; 128; 128; 4;
  128; 128; 0; 128; 128; 128; 128; 2; 0; 128; 2; 128; 128; 128; 128; 4; 128; 0; 2; 128; 128; 128; 128; 4; 0; 2; 4; 128; 128; 128; 128; 6;
  128; 128; 128; 0; 128; 128; 128; 2; 0; 128; 128; 2; 128; 128; 128; 4; 128; 0; 128; 2; 128; 128; 128; 4; 0; 2; 128; 4; 128; 128; 128; 6;
  128; 128; 0; 2; 128; 128; 128; 4; 0; 128; 2; 4; 128; 128; 128; 6; 128; 0; 2; 4; 128; 128; 128; 6; 0; 2; 4; 6; 128; 128; 128; 8;
  128; 128; 128; 128; 0; 128; 128; 2; 0; 128; 128; 128; 2; 128; 128; 4; 128; 0; 128; 128; 2; 128; 128; 4; 0; 2; 128; 128; 4; 128; 128; 6;
  128; 128; 0; 128; 2; 128; 128; 4; 0; 128; 2; 128; 4; 128; 128; 6; 128; 0; 2; 128; 4; 128; 128; 6; 0; 2; 4; 128; 6; 128; 128; 8;
  128; 128; 128; 0; 2; 128; 128; 4; 0; 128; 128; 2; 4; 128; 128; 6; 128; 0; 128; 2; 4; 128; 128; 6; 0; 2; 128; 4; 6; 128; 128; 8;
  128; 128; 0; 2; 4; 128; 128; 6; 0; 128; 2; 4; 6; 128; 128; 8; 128; 0; 2; 4; 6; 128; 128; 8; 0; 2; 4; 6; 8; 128; 128; 10;
  128; 128; 128; 128; 128; 0; 128; 2; 0; 128; 128; 128; 128; 2; 128; 4; 128; 0; 128; 128; 128; 2; 128; 4; 0; 2; 128; 128; 128; 4; 128; 6;
  128; 128; 0; 128; 128; 2; 128; 4; 0; 128; 2; 128; 128; 4; 128; 6; 128; 0; 2; 128; 128; 4; 128; 6; 0; 2; 4; 128; 128; 6; 128; 8;
  128; 128; 128; 0; 128; 2; 128; 4; 0; 128; 128; 2; 128; 4; 128; 6; 128; 0; 128; 2; 128; 4; 128; 6; 0; 2; 128; 4; 128; 6; 128; 8;
  128; 128; 0; 2; 128; 4; 128; 6; 0; 128; 2; 4; 128; 6; 128; 8; 128; 0; 2; 4; 128; 6; 128; 8; 0; 2; 4; 6; 128; 8; 128; 10;
  128; 128; 128; 128; 0; 2; 128; 4; 0; 128; 128; 128; 2; 4; 128; 6; 128; 0; 128; 128; 2; 4; 128; 6; 0; 2; 128; 128; 4; 6; 128; 8;
  128; 128; 0; 128; 2; 4; 128; 6; 0; 128; 2; 128; 4; 6; 128; 8; 128; 0; 2; 128; 4; 6; 128; 8; 0; 2; 4; 128; 6; 8; 128; 10;
  128; 128; 128; 0; 2; 4; 128; 6; 0; 128; 128; 2; 4; 6; 128; 8; 128; 0; 128; 2; 4; 6; 128; 8; 0; 2; 128; 4; 6; 8; 128; 10;
  128; 128; 0; 2; 4; 6; 128; 8; 0; 128; 2; 4; 6; 8; 128; 10; 128; 0; 2; 4; 6; 8; 128; 10; 0; 2; 4; 6; 8; 10; 128; 12;
  128; 128; 128; 128; 128; 128; 0; 2; 0; 128; 128; 128; 128; 128; 2; 4; 128; 0; 128; 128; 128; 128; 2; 4; 0; 2; 128; 128; 128; 128; 4; 6;
  128; 128; 0; 128; 128; 128; 2; 4; 0; 128; 2; 128; 128; 128; 4; 6; 128; 0; 2; 128; 128; 128; 4; 6; 0; 2; 4; 128; 128; 128; 6; 8;
  128; 128; 128; 0; 128; 128; 2; 4; 0; 128; 128; 2; 128; 128; 4; 6; 128; 0; 128; 2; 128; 128; 4; 6; 0; 2; 128; 4; 128; 128; 6; 8;
  128; 128; 0; 2; 128; 128; 4; 6; 0; 128; 2; 4; 128; 128; 6; 8; 128; 0; 2; 4; 128; 128; 6; 8; 0; 2; 4; 6; 128; 128; 8; 10;
  128; 128; 128; 128; 0; 128; 2; 4; 0; 128; 128; 128; 2; 128; 4; 6; 128; 0; 128; 128; 2; 128; 4; 6; 0; 2; 128; 128; 4; 128; 6; 8;
  128; 128; 0; 128; 2; 128; 4; 6; 0; 128; 2; 128; 4; 128; 6; 8; 128; 0; 2; 128; 4; 128; 6; 8; 0; 2; 4; 128; 6; 128; 8; 10;
  128; 128; 128; 0; 2; 128; 4; 6; 0; 128; 128; 2; 4; 128; 6; 8; 128; 0; 128; 2; 4; 128; 6; 8; 0; 2; 128; 4; 6; 128; 8; 10;
  128; 128; 0; 2; 4; 128; 6; 8; 0; 128; 2; 4; 6; 128; 8; 10; 128; 0; 2; 4; 6; 128; 8; 10; 0; 2; 4; 6; 8; 128; 10; 12;
  128; 128; 128; 128; 128; 0; 2; 4; 0; 128; 128; 128; 128; 2; 4; 6; 128; 0; 128; 128; 128; 2; 4; 6; 0; 2; 128; 128; 128; 4; 6; 8;
  128; 128; 0; 128; 128; 2; 4; 6; 0; 128; 2; 128; 128; 4; 6; 8; 128; 0; 2; 128; 128; 4; 6; 8; 0; 2; 4; 128; 128; 6; 8; 10;
  128; 128; 128; 0; 128; 2; 4; 6; 0; 128; 128; 2; 128; 4; 6; 8; 128; 0; 128; 2; 128; 4; 6; 8; 0; 2; 128; 4; 128; 6; 8; 10;
  128; 128; 0; 2; 128; 4; 6; 8; 0; 128; 2; 4; 128; 6; 8; 10; 128; 0; 2; 4; 128; 6; 8; 10; 0; 2; 4; 6; 128; 8; 10; 12;
  128; 128; 128; 128; 0; 2; 4; 6; 0; 128; 128; 128; 2; 4; 6; 8; 128; 0; 128; 128; 2; 4; 6; 8; 0; 2; 128; 128; 4; 6; 8; 10;
  128; 128; 0; 128; 2; 4; 6; 8; 0; 128; 2; 128; 4; 6; 8; 10; 128; 0; 2; 128; 4; 6; 8; 10; 0; 2; 4; 128; 6; 8; 10; 12;
  128; 128; 128; 0; 2; 4; 6; 8; 0; 128; 128; 2; 4; 6; 8; 10; 128; 0; 128; 2; 4; 6; 8; 10; 0; 2; 128; 4; 6; 8; 10; 12;
  128; 128; 0; 2; 4; 6; 8; 10; 0; 128; 2; 4; 6; 8; 10; 12; 128; 0; 2; 4; 6; 8; 10; 12; 0; 2; 4; 6; 8; 10; 12; 14].
(** hwy/ops/generic_ops-inl.h 6705-6709 *)
Definition packed_expand32 : list Z := [
  65535; 65520; 65295; 65296; 61695; 61936; 61711; 61968; 4095; 8176; 7951; 12048; 4351; 8688; 8463; 12816].
(** hwy/ops/x86_128-inl.h 12811-12940 *)
Definition table_compress16 : list Z := [
  0; 2; 4; 6; 8; 10; 12; 14; 0; 2; 4; 6; 8; 10; 12; 14; 2; 0; 4; 6; 8; 10; 12; 14; 0; 2; 4; 6; 8; 10; 12; 14;
  4; 0; 2; 6; 8; 10; 12; 14; 0; 4; 2; 6; 8; 10; 12; 14; 2; 4; 0; 6; 8; 10; 12; 14; 0; 2; 4; 6; 8; 10; 12; 14;
  6; 0; 2; 4; 8; 10; 12; 14; 0; 6; 2; 4; 8; 10; 12; 14; 2; 6; 0; 4; 8; 10; 12; 14; 0; 2; 6; 4; 8; 10; 12; 14;
  4; 6; 0; 2; 8; 10; 12; 14; 0; 4; 6; 2; 8; 10; 12; 14; 2; 4; 6; 0; 8; 10; 12; 14; 0; 2; 4; 6; 8; 10; 12; 14;
  8; 0; 2; 4; 6; 10; 12; 14; 0; 8; 2; 4; 6; 10; 12; 14; 2; 8; 0; 4; 6; 10; 12; 14; 0; 2; 8; 4; 6; 10; 12; 14;
  4; 8; 0; 2; 6; 10; 12; 14; 0; 4; 8; 2; 6; 10; 12; 14; 2; 4; 8; 0; 6; 10; 12; 14; 0; 2; 4; 8; 6; 10; 12; 14;
  6; 8; 0; 2; 4; 10; 12; 14; 0; 6; 8; 2; 4; 10; 12; 14; 2; 6; 8; 0; 4; 10; 12; 14; 0; 2; 6; 8; 4; 10; 12; 14;
  4; 6; 8; 0; 2; 10; 12; 14; 0; 4; 6; 8; 2; 10; 12; 14; 2; 4; 6; 8; 0; 10; 12; 14; 0; 2; 4; 6; 8; 10; 12; 14;
  10; 0; 2; 4; 6; 8; 12; 14; 0; 10; 2; 4; 6; 8; 12; 14; 2; 10; 0; 4; 6; 8; 12; 14; 0; 2; 10; 4; 6; 8; 12; 14;
  4; 10; 0; 2; 6; 8; 12; 14; 0; 4; 10; 2; 6; 8; 12; 14; 2; 4; 10; 0; 6; 8; 12; 14; 0; 2; 4; 10; 6; 8; 12; 14;
  6; 10; 0; 2; 4; 8; 12; 14; 0; 6; 10; 2; 4; 8; 12; 14; 2; 6; 10; 0; 4; 8; 12; 14; 0; 2; 6; 10; 4; 8; 12; 14;
  4; 6; 10; 0; 2; 8; 12; 14; 0; 4; 6; 10; 2; 8; 12; 14; 2; 4; 6; 10; 0; 8; 12; 14; 0; 2; 4; 6; 10; 8; 12; 14;
  8; 10; 0; 2; 4; 6; 12; 14; 0; 8; 10; 2; 4; 6; 12; 14; 2; 8; 10; 0; 4; 6; 12; 14; 0; 2; 8; 10; 4; 6; 12; 14;
  4; 8; 10; 0; 2; 6; 12; 14; 0; 4; 8; 10; 2; 6; 12; 14; 2; 4; 8; 10; 0; 6; 12; 14; 0; 2; 4; 8; 10; 6; 12; 14;
  6; 8; 10; 0; 2; 4; 12; 14; 0; 6; 8; 10; 2; 4; 12; 14; 2; 6; 8; 10; 0; 4; 12; 14; 0; 2; 6; 8; 10; 4; 12; 14;
  4; 6; 8; 10; 0; 2; 12; 14; 0; 4; 6; 8; 10; 2; 12; 14; 2; 4; 6; 8; 10; 0; 12; 14; 0; 2; 4; 6; 8; 10; 12; 14;
  12; 0; 2; 4; 6; 8; 10; 14; 0; 12; 2; 4; 6; 8; 10; 14; 2; 12; 0; 4; 6; 8; 10; 14; 0; 2; 12; 4; 6; 8; 10; 14;
  4; 12; 0; 2; 6; 8; 10; 14; 0; 4; 12; 2; 6; 8; 10; 14; 2; 4; 12; 0; 6; 8; 10; 14; 0; 2; 4; 12; 6; 8; 10; 14;
  6; 12; 0; 2; 4; 8; 10; 14; 0; 6; 12; 2; 4; 8; 10; 14; 2; 6; 12; 0; 4; 8; 10; 14; 0; 2; 6; 12; 4; 8; 10; 14;
  4; 6; 12; 0; 2; 8; 10; 14; 0; 4; 6; 12; 2; 8; 10; 14; 2; 4; 6; 12; 0; 8; 10; 14; 0; 2; 4; 6; 12; 8; 10; 14;
  8; 12; 0; 2; 4; 6; 10; 14; 0; 8; 12; 2; 4; 6; 10; 14; 2; 8; 12; 0; 4; 6; 10; 14; 0; 2; 8; 12; 4; 6; 10; 14;
  4; 8; 12; 0; 2; 6; 10; 14; 0; 4; 8; 12; 2; 6; 10; 14; 2; 4; 8; 12; 0; 6; 10; 14; 0; 2; 4; 8; 12; 6; 10; 14;
  6; 8; 12; 0; 2; 4; 10; 14; 0; 6; 8; 12; 2; 4; 10; 14; 2; 6; 8; 12; 0; 4; 10; 14; 0; 2; 6; 8; 12; 4; 10; 14;
  4; 6; 8; 12; 0; 2; 10; 14; 0; 4; 6; 8; 12; 2; 10; 14; 2; 4; 6; 8; 12; 0; 10; 14; 0; 2; 4; 6; 8; 12; 10; 14;
  10; 12; 0; 2; 4; 6; 8; 14; 0; 10; 12; 2; 4; 6; 8; 14; 2; 10; 12; 0; 4; 6; 8; 14; 0; 2; 10; 12; 4; 6; 8; 14;
  4; 10; 12; 0; 2; 6; 8; 14; 0; 4; 10; 12; 2; 6; 8; 14; 2; 4; 10; 12; 0; 6; 8; 14; 0; 2; 4; 10; 12; 6; 8; 14;
  6; 10; 12; 0; 2; 4; 8; 14; 0; 6; 10; 12; 2; 4; 8; 14; 2; 6; 10; 12; 0; 4; 8; 14; 0; 2; 6; 10; 12; 4; 8; 14;
  4; 6; 10; 12; 0; 2; 8; 14; 0; 4; 6; 10; 12; 2; 8; 14; 2; 4; 6; 10; 12; 0; 8; 14; 0; 2; 4; 6; 10; 12; 8; 14;
  8; 10; 12; 0; 2; 4; 6; 14; 0; 8; 10; 12; 2; 4; 6; 14; 2; 8; 10; 12; 0; 4; 6; 14; 0; 2; 8; 10; 12; 4; 6; 14;
  4; 8; 10; 12; 0; 2; 6; 14; 0; 4; 8; 10; 12; 2; 6; 14; 2; 4; 8; 10; 12; 0; 6; 14; 0; 2; 4; 8; 10; 12; 6; 14;
  6; 8; 10; 12; 0; 2; 4; 14; 0; 6; 8; 10; 12; 2; 4; 14; 2; 6; 8; 10; 12; 0; 4; 14; 0; 2; 6; 8; 10; 12; 4; 14;
  4; 6; 8; 10; 12; 0; 2; 14; 0; 4; 6; 8; 10; 12; 2; 14; 2; 4; 6; 8; 10; 12; 0; 14; 0; 2; 4; 6; 8; 10; 12; 14;
  14; 0; 2; 4; 6; 8; 10; 12; 0; 14; 2; 4; 6; 8; 10; 12; 2; 14; 0; 4; 6; 8; 10; 12; 0; 2; 14; 4; 6; 8; 10; 12;
  4; 14; 0; 2; 6; 8; 10; 12; 0; 4; 14; 2; 6; 8; 10; 12; 2; 4; 14; 0; 6; 8; 10; 12; 0; 2; 4; 14; 6; 8; 10; 12;
  6; 14; 0; 2; 4; 8; 10; 12; 0; 6; 14; 2; 4; 8; 10; 12; 2; 6; 14; 0; 4; 8; 10; 12; 0; 2; 6; 14; 4; 8; 10; 12;
  4; 6; 14; 0; 2; 8; 10; 12; 0; 4; 6; 14; 2; 8; 10; 12; 2; 4; 6; 14; 0; 8; 10; 12; 0; 2; 4; 6; 14; 8; 10; 12;
  8; 14; 0; 2; 4; 6; 10; 12; 0; 8; 14; 2; 4; 6; 10; 12; 2; 8; 14; 0; 4; 6; 10; 12; 0; 2; 8; 14; 4; 6; 10; 12;
  4; 8; 14; 0; 2; 6; 10; 12; 0; 4; 8; 14; 2; 6; 10; 12; 2; 4; 8; 14; 0; 6; 10; 12; 0; 2; 4; 8; 14; 6; 10; 12;
  6; 8; 14; 0; 2; 4; 10; 12; 0; 6; 8; 14; 2; 4; 10; 12; 2; 6; 8; 14; 0; 4; 10; 12; 0; 2; 6; 8; 14; 4; 10; 12;
  4; 6; 8; 14; 0; 2; 10; 12; 0; 4; 6; 8; 14; 2; 10; 12; 2; 4; 6; 8; 14; 0; 10; 12; 0; 2; 4; 6; 8; 14; 10; 12;
  10; 14; 0; 2; 4; 6; 8; 12; 0; 10; 14; 2; 4; 6; 8; 12; 2; 10; 14; 0; 4; 6; 8; 12; 0; 2; 10; 14; 4; 6; 8; 12;
  4; 10; 14; 0; 2; 6; 8; 12; 0; 4; 10; 14; 2; 6; 8; 12; 2; 4; 10; 14; 0; 6; 8; 12; 0; 2; 4; 10; 14; 6; 8; 12;
  6; 10; 14; 0; 2; 4; 8; 12; 0; 6; 10; 14; 2; 4; 8; 12; 2; 6; 10; 14; 0; 4; 8; 12; 0; 2; 6; 10; 14; 4; 8; 12;
  4; 6; 10; 14; 0; 2; 8; 12; 0; 4; 6; 10; 14; 2; 8; 12; 2; 4; 6; 10; 14; 0; 8; 12; 0; 2; 4; 6; 10; 14; 8; 12;
  8; 10; 14; 0; 2; 4; 6; 12; 0; 8; 10; 14; 2; 4; 6; 12; 2; 8; 10; 14; 0; 4; 6; 12; 0; 2; 8; 10; 14; 4; 6; 12;
  4; 8; 10; 14; 0; 2; 6; 12; 0; 4; 8; 10; 14; 2; 6; 12; 2; 4; 8; 10; 14; 0; 6; 12; 0; 2; 4; 8; 10; 14; 6; 12;
  6; 8; 10; 14; 0; 2; 4; 12; 0; 6; 8; 10; 14; 2; 4; 12; 2; 6; 8; 10; 14; 0; 4; 12; 0; 2; 6; 8; 10; 14; 4; 12;
  4; 6; 8; 10; 14; 0; 2; 12; 0; 4; 6; 8; 10; 14; 2; 12; 2; 4; 6; 8; 10; 14; 0; 12; 0; 2; 4; 6; 8; 10; 14; 12;
  12; 14; 0; 2; 4; 6; 8; 10; 0; 12; 14; 2; 4; 6; 8; 10; 2; 12; 14; 0; 4; 6; 8; 10; 0; 2; 12; 14; 4; 6; 8; 10;
  4; 12; 14; 0; 2; 6; 8; 10; 0; 4; 12; 14; 2; 6; 8; 10; 2; 4; 12; 14; 0; 6; 8; 10; 0; 2; 4; 12; 14; 6; 8; 10;
  6; 12; 14; 0; 2; 4; 8; 10; 0; 6; 12; 14; 2; 4; 8; 10; 2; 6; 12; 14; 0; 4; 8; 10; 0; 2; 6; 12; 14; 4; 8; 10;
  4; 6; 12; 14; 0; 2; 8; 10; 0; 4; 6; 12; 14; 2; 8; 10; 2; 4; 6; 12; 14; 0; 8; 10; 0; 2; 4; 6; 12; 14; 8; 10;
  8; 12; 14; 0; 2; 4; 6; 10; 0; 8; 12; 14; 2; 4; 6; 10; 2; 8; 12; 14; 0; 4; 6; 10; 0; 2; 8; 12; 14; 4; 6; 10;
  4; 8; 12; 14; 0; 2; 6; 10; 0; 4; 8; 12; 14; 2; 6; 10; 2; 4; 8; 12; 14; 0; 6; 10; 0; 2; 4; 8; 12; 14; 6; 10;
  6; 8; 12; 14; 0; 2; 4; 10; 0; 6; 8; 12; 14; 2; 4; 10; 2; 6; 8; 12; 14; 0; 4; 10; 0; 2; 6; 8; 12; 14; 4; 10;
  4; 6; 8; 12; 14; 0; 2; 10; 0; 4; 6; 8; 12; 14; 2; 10; 2; 4; 6; 8; 12; 14; 0; 10; 0; 2; 4; 6; 8; 12; 14; 10;
  10; 12; 14; 0; 2; 4; 6; 8; 0; 10; 12; 14; 2; 4; 6; 8; 2; 10; 12; 14; 0; 4; 6; 8; 0; 2; 10; 12; 14; 4; 6; 8;
  4; 10; 12; 14; 0; 2; 6; 8; 0; 4; 10; 12; 14; 2; 6; 8; 2; 4; 10; 12; 14; 0; 6; 8; 0; 2; 4; 10; 12; 14; 6; 8;
  6; 10; 12; 14; 0; 2; 4; 8; 0; 6; 10; 12; 14; 2; 4; 8; 2; 6; 10; 12; 14; 0; 4; 8; 0; 2; 6; 10; 12; 14; 4; 8;
  4; 6; 10; 12; 14; 0; 2; 8; 0; 4; 6; 10; 12; 14; 2; 8; 2; 4; 6; 10; 12; 14; 0; 8; 0; 2; 4; 6; 10; 12; 14; 8;
  8; 10; 12; 14; 0; 2; 4; 6; 0; 8; 10; 12; 14; 2; 4; 6; 2; 8; 10; 12; 14; 0; 4; 6; 0; 2; 8; 10; 12; 14; 4; 6;
  4; 8; 10; 12; 14; 0; 2; 6; 0; 4; 8; 10; 12; 14; 2; 6; 2; 4; 8; 10; 12; 14; 0; 6; 0; 2; 4; 8; 10; 12; 14; 6;
  6; 8; 10; 12; 14; 0; 2; 4; 0; 6; 8; 10; 12; 14; 2; 4; 2; 6; 8; 10; 12; 14; 0; 4; 0; 2; 6; 8; 10; 12; 14; 4;
  4; 6; 8; 10; 12; 14; 0; 2; 0; 4; 6; 8; 10; 12; 14; 2; 2; 4; 6; 8; 10; 12; 14; 0; 0; 2; 4; 6; 8; 10; 12; 14].
(** hwy/ops/x86_128-inl.h 12962-13091 *)
Definition table_compress_not16 : list Z := [
  0; 2; 4; 6; 8; 10; 12; 14; 2; 4; 6; 8; 10; 12; 14; 0; 0; 4; 6; 8; 10; 12; 14; 2; 4; 6; 8; 10; 12; 14; 0; 2;
  0; 2; 6; 8; 10; 12; 14; 4; 2; 6; 8; 10; 12; 14; 0; 4; 0; 6; 8; 10; 12; 14; 2; 4; 6; 8; 10; 12; 14; 0; 2; 4;
  0; 2; 4; 8; 10; 12; 14; 6; 2; 4; 8; 10; 12; 14; 0; 6; 0; 4; 8; 10; 12; 14; 2; 6; 4; 8; 10; 12; 14; 0; 2; 6;
  0; 2; 8; 10; 12; 14; 4; 6; 2; 8; 10; 12; 14; 0; 4; 6; 0; 8; 10; 12; 14; 2; 4; 6; 8; 10; 12; 14; 0; 2; 4; 6;
  0; 2; 4; 6; 10; 12; 14; 8; 2; 4; 6; 10; 12; 14; 0; 8; 0; 4; 6; 10; 12; 14; 2; 8; 4; 6; 10; 12; 14; 0; 2; 8;
  0; 2; 6; 10; 12; 14; 4; 8; 2; 6; 10; 12; 14; 0; 4; 8; 0; 6; 10; 12; 14; 2; 4; 8; 6; 10; 12; 14; 0; 2; 4; 8;
  0; 2; 4; 10; 12; 14; 6; 8; 2; 4; 10; 12; 14; 0; 6; 8; 0; 4; 10; 12; 14; 2; 6; 8; 4; 10; 12; 14; 0; 2; 6; 8;
  0; 2; 10; 12; 14; 4; 6; 8; 2; 10; 12; 14; 0; 4; 6; 8; 0; 10; 12; 14; 2; 4; 6; 8; 10; 12; 14; 0; 2; 4; 6; 8;
  0; 2; 4; 6; 8; 12; 14; 10; 2; 4; 6; 8; 12; 14; 0; 10; 0; 4; 6; 8; 12; 14; 2; 10; 4; 6; 8; 12; 14; 0; 2; 10;
  0; 2; 6; 8; 12; 14; 4; 10; 2; 6; 8; 12; 14; 0; 4; 10; 0; 6; 8; 12; 14; 2; 4; 10; 6; 8; 12; 14; 0; 2; 4; 10;
  0; 2; 4; 8; 12; 14; 6; 10; 2; 4; 8; 12; 14; 0; 6; 10; 0; 4; 8; 12; 14; 2; 6; 10; 4; 8; 12; 14; 0; 2; 6; 10;
  0; 2; 8; 12; 14; 4; 6; 10; 2; 8; 12; 14; 0; 4; 6; 10; 0; 8; 12; 14; 2; 4; 6; 10; 8; 12; 14; 0; 2; 4; 6; 10;
  0; 2; 4; 6; 12; 14; 8; 10; 2; 4; 6; 12; 14; 0; 8; 10; 0; 4; 6; 12; 14; 2; 8; 10; 4; 6; 12; 14; 0; 2; 8; 10;
  0; 2; 6; 12; 14; 4; 8; 10; 2; 6; 12; 14; 0; 4; 8; 10; 0; 6; 12; 14; 2; 4; 8; 10; 6; 12; 14; 0; 2; 4; 8; 10;
  0; 2; 4; 12; 14; 6; 8; 10; 2; 4; 12; 14; 0; 6; 8; 10; 0; 4; 12; 14; 2; 6; 8; 10; 4; 12; 14; 0; 2; 6; 8; 10;
  0; 2; 12; 14; 4; 6; 8; 10; 2; 12; 14; 0; 4; 6; 8; 10; 0; 12; 14; 2; 4; 6; 8; 10; 12; 14; 0; 2; 4; 6; 8; 10;
  0; 2; 4; 6; 8; 10; 14; 12; 2; 4; 6; 8; 10; 14; 0; 12; 0; 4; 6; 8; 10; 14; 2; 12; 4; 6; 8; 10; 14; 0; 2; 12;
  0; 2; 6; 8; 10; 14; 4; 12; 2; 6; 8; 10; 14; 0; 4; 12; 0; 6; 8; 10; 14; 2; 4; 12; 6; 8; 10; 14; 0; 2; 4; 12;
  0; 2; 4; 8; 10; 14; 6; 12; 2; 4; 8; 10; 14; 0; 6; 12; 0; 4; 8; 10; 14; 2; 6; 12; 4; 8; 10; 14; 0; 2; 6; 12;
  0; 2; 8; 10; 14; 4; 6; 12; 2; 8; 10; 14; 0; 4; 6; 12; 0; 8; 10; 14; 2; 4; 6; 12; 8; 10; 14; 0; 2; 4; 6; 12;
  0; 2; 4; 6; 10; 14; 8; 12; 2; 4; 6; 10; 14; 0; 8; 12; 0; 4; 6; 10; 14; 2; 8; 12; 4; 6; 10; 14; 0; 2; 8; 12;
  0; 2; 6; 10; 14; 4; 8; 12; 2; 6; 10; 14; 0; 4; 8; 12; 0; 6; 10; 14; 2; 4; 8; 12; 6; 10; 14; 0; 2; 4; 8; 12;
  0; 2; 4; 10; 14; 6; 8; 12; 2; 4; 10; 14; 0; 6; 8; 12; 0; 4; 10; 14; 2; 6; 8; 12; 4; 10; 14; 0; 2; 6; 8; 12;
  0; 2; 10; 14; 4; 6; 8; 12; 2; 10; 14; 0; 4; 6; 8; 12; 0; 10; 14; 2; 4; 6; 8; 12; 10; 14; 0; 2; 4; 6; 8; 12;
  0; 2; 4; 6; 8; 14; 10; 12; 2; 4; 6; 8; 14; 0; 10; 12; 0; 4; 6; 8; 14; 2; 10; 12; 4; 6; 8; 14; 0; 2; 10; 12;
  0; 2; 6; 8; 14; 4; 10; 12; 2; 6; 8; 14; 0; 4; 10; 12; 0; 6; 8; 14; 2; 4; 10; 12; 6; 8; 14; 0; 2; 4; 10; 12;
  0; 2; 4; 8; 14; 6; 10; 12; 2; 4; 8; 14; 0; 6; 10; 12; 0; 4; 8; 14; 2; 6; 10; 12; 4; 8; 14; 0; 2; 6; 10; 12;
  0; 2; 8; 14; 4; 6; 10; 12; 2; 8; 14; 0; 4; 6; 10; 12; 0; 8; 14; 2; 4; 6; 10; 12; 8; 14; 0; 2; 4; 6; 10; 12;
  0; 2; 4; 6; 14; 8; 10; 12; 2; 4; 6; 14; 0; 8; 10; 12; 0; 4; 6; 14; 2; 8; 10; 12; 4; 6; 14; 0; 2; 8; 10; 12;
  0; 2; 6; 14; 4; 8; 10; 12; 2; 6; 14; 0; 4; 8; 10; 12; 0; 6; 14; 2; 4; 8; 10; 12; 6; 14; 0; 2; 4; 8; 10; 12;
  0; 2; 4; 14; 6; 8; 10; 12; 2; 4; 14; 0; 6; 8; 10; 12; 0; 4; 14; 2; 6; 8; 10; 12; 4; 14; 0; 2; 6; 8; 10; 12;
  0; 2; 14; 4; 6; 8; 10; 12; 2; 14; 0; 4; 6; 8; 10; 12; 0; 14; 2; 4; 6; 8; 10; 12; 14; 0; 2; 4; 6; 8; 10; 12;
  0; 2; 4; 6; 8; 10; 12; 14; 2; 4; 6; 8; 10; 12; 0; 14; 0; 4; 6; 8; 10; 12; 2; 14; 4; 6; 8; 10; 12; 0; 2; 14;
  0; 2; 6; 8; 10; 12; 4; 14; 2; 6; 8; 10; 12; 0; 4; 14; 0; 6; 8; 10; 12; 2; 4; 14; 6; 8; 10; 12; 0; 2; 4; 14;
  0; 2; 4; 8; 10; 12; 6; 14; 2; 4; 8; 10; 12; 0; 6; 14; 0; 4; 8; 10; 12; 2; 6; 14; 4; 8; 10; 12; 0; 2; 6; 14;
  0; 2; 8; 10; 12; 4; 6; 14; 2; 8; 10; 12; 0; 4; 6; 14; 0; 8; 10; 12; 2; 4; 6; 14; 8; 10; 12; 0; 2; 4; 6; 14;
  0; 2; 4; 6; 10; 12; 8; 14; 2; 4; 6; 10; 12; 0; 8; 14; 0; 4; 6; 10; 12; 2; 8; 14; 4; 6; 10; 12; 0; 2; 8; 14;
  0; 2; 6; 10; 12; 4; 8; 14; 2; 6; 10; 12; 0; 4; 8; 14; 0; 6; 10; 12; 2; 4; 8; 14; 6; 10; 12; 0; 2; 4; 8; 14;
  0; 2; 4; 10; 12; 6; 8; 14; 2; 4; 10; 12; 0; 6; 8; 14; 0; 4; 10; 12; 2; 6; 8; 14; 4; 10; 12; 0; 2; 6; 8; 14;
  0; 2; 10; 12; 4; 6; 8; 14; 2; 10; 12; 0; 4; 6; 8; 14; 0; 10; 12; 2; 4; 6; 8; 14; 10; 12; 0; 2; 4; 6; 8; 14;
  0; 2; 4; 6; 8; 12; 10; 14; 2; 4; 6; 8; 12; 0; 10; 14; 0; 4; 6; 8; 12; 2; 10; 14; 4; 6; 8; 12; 0; 2; 10; 14;
  0; 2; 6; 8; 12; 4; 10; 14; 2; 6; 8; 12; 0; 4; 10; 14; 0; 6; 8; 12; 2; 4; 10; 14; 6; 8; 12; 0; 2; 4; 10; 14;
  0; 2; 4; 8; 12; 6; 10; 14; 2; 4; 8; 12; 0; 6; 10; 14; 0; 4; 8; 12; 2; 6; 10; 14; 4; 8; 12; 0; 2; 6; 10; 14;
  0; 2; 8; 12; 4; 6; 10; 14; 2; 8; 12; 0; 4; 6; 10; 14; 0; 8; 12; 2; 4; 6; 10; 14; 8; 12; 0; 2; 4; 6; 10; 14;
  0; 2; 4; 6; 12; 8; 10; 14; 2; 4; 6; 12; 0; 8; 10; 14; 0; 4; 6; 12; 2; 8; 10; 14; 4; 6; 12; 0; 2; 8; 10; 14;
  0; 2; 6; 12; 4; 8; 10; 14; 2; 6; 12; 0; 4; 8; 10; 14; 0; 6; 12; 2; 4; 8; 10; 14; 6; 12; 0; 2; 4; 8; 10; 14;
  0; 2; 4; 12; 6; 8; 10; 14; 2; 4; 12; 0; 6; 8; 10; 14; 0; 4; 12; 2; 6; 8; 10; 14; 4; 12; 0; 2; 6; 8; 10; 14;
  0; 2; 12; 4; 6; 8; 10; 14; 2; 12; 0; 4; 6; 8; 10; 14; 0; 12; 2; 4; 6; 8; 10; 14; 12; 0; 2; 4; 6; 8; 10; 14;
  0; 2; 4; 6; 8; 10; 12; 14; 2; 4; 6; 8; 10; 0; 12; 14; 0; 4; 6; 8; 10; 2; 12; 14; 4; 6; 8; 10; 0; 2; 12; 14;
  0; 2; 6; 8; 10; 4; 12; 14; 2; 6; 8; 10; 0; 4; 12; 14; 0; 6; 8; 10; 2; 4; 12; 14; 6; 8; 10; 0; 2; 4; 12; 14;
  0; 2; 4; 8; 10; 6; 12; 14; 2; 4; 8; 10; 0; 6; 12; 14; 0; 4; 8; 10; 2; 6; 12; 14; 4; 8; 10; 0; 2; 6; 12; 14;
  0; 2; 8; 10; 4; 6; 12; 14; 2; 8; 10; 0; 4; 6; 12; 14; 0; 8; 10; 2; 4; 6; 12; 14; 8; 10; 0; 2; 4; 6; 12; 14;
  0; 2; 4; 6; 10; 8; 12; 14; 2; 4; 6; 10; 0; 8; 12; 14; 0; 4; 6; 10; 2; 8; 12; 14; 4; 6; 10; 0; 2; 8; 12; 14;
  0; 2; 6; 10; 4; 8; 12; 14; 2; 6; 10; 0; 4; 8; 12; 14; 0; 6; 10; 2; 4; 8; 12; 14; 6; 10; 0; 2; 4; 8; 12; 14;
  0; 2; 4; 10; 6; 8; 12; 14; 2; 4; 10; 0; 6; 8; 12; 14; 0; 4; 10; 2; 6; 8; 12; 14; 4; 10; 0; 2; 6; 8; 12; 14;
  0; 2; 10; 4; 6; 8; 12; 14; 2; 10; 0; 4; 6; 8; 12; 14; 0; 10; 2; 4; 6; 8; 12; 14; 10; 0; 2; 4; 6; 8; 12; 14;
  0; 2; 4; 6; 8; 10; 12; 14; 2; 4; 6; 8; 0; 10; 12; 14; 0; 4; 6; 8; 2; 10; 12; 14; 4; 6; 8; 0; 2; 10; 12; 14;
  0; 2; 6; 8; 4; 10; 12; 14; 2; 6; 8; 0; 4; 10; 12; 14; 0; 6; 8; 2; 4; 10; 12; 14; 6; 8; 0; 2; 4; 10; 12; 14;
  0; 2; 4; 8; 6; 10; 12; 14; 2; 4; 8; 0; 6; 10; 12; 14; 0; 4; 8; 2; 6; 10; 12; 14; 4; 8; 0; 2; 6; 10; 12; 14;
  0; 2; 8; 4; 6; 10; 12; 14; 2; 8; 0; 4; 6; 10; 12; 14; 0; 8; 2; 4; 6; 10; 12; 14; 8; 0; 2; 4; 6; 10; 12; 14;
  0; 2; 4; 6; 8; 10; 12; 14; 2; 4; 6; 0; 8; 10; 12; 14; 0; 4; 6; 2; 8; 10; 12; 14; 4; 6; 0; 2; 8; 10; 12; 14;
  0; 2; 6; 4; 8; 10; 12; 14; 2; 6; 0; 4; 8; 10; 12; 14; 0; 6; 2; 4; 8; 10; 12; 14; 6; 0; 2; 4; 8; 10; 12; 14;
  0; 2; 4; 6; 8; 10; 12; 14; 2; 4; 0; 6; 8; 10; 12; 14; 0; 4; 2; 6; 8; 10; 12; 14; 4; 0; 2; 6; 8; 10; 12; 14;
  0; 2; 4; 6; 8; 10; 12; 14; 2; 0; 4; 6; 8; 10; 12; 14; 0; 2; 4; 6; 8; 10; 12; 14; 0; 2; 4; 6; 8; 10; 12; 14].
(** hwy/ops/x86_128-inl.h 13103-13120 *)
Definition table_compress32 : list Z := [
  0; 1; 2; 3; 4; 5; 6; 7; 8; 9; 10; 11; 12; 13; 14; 15; 0; 1; 2; 3; 4; 5; 6; 7; 8; 9; 10; 11; 12; 13; 14; 15;
  4; 5; 6; 7; 0; 1; 2; 3; 8; 9; 10; 11; 12; 13; 14; 15; 0; 1; 2; 3; 4; 5; 6; 7; 8; 9; 10; 11; 12; 13; 14; 15;
  8; 9; 10; 11; 0; 1; 2; 3; 4; 5; 6; 7; 12; 13; 14; 15; 0; 1; 2; 3; 8; 9; 10; 11; 4; 5; 6; 7; 12; 13; 14; 15;
  4; 5; 6; 7; 8; 9; 10; 11; 0; 1; 2; 3; 12; 13; 14; 15; 0; 1; 2; 3; 4; 5; 6; 7; 8; 9; 10; 11; 12; 13; 14; 15;
  12; 13; 14; 15; 0; 1; 2; 3; 4; 5; 6; 7; 8; 9; 10; 11; 0; 1; 2; 3; 12; 13; 14; 15; 4; 5; 6; 7; 8; 9; 10; 11;
  4; 5; 6; 7; 12; 13; 14; 15; 0; 1; 2; 3; 8; 9; 10; 11; 0; 1; 2; 3; 4; 5; 6; 7; 12; 13; 14; 15; 8; 9; 10; 11;
  8; 9; 10; 11; 12; 13; 14; 15; 0; 1; 2; 3; 4; 5; 6; 7; 0; 1; 2; 3; 8; 9; 10; 11; 12; 13; 14; 15; 4; 5; 6; 7;
  4; 5; 6; 7; 8; 9; 10; 11; 12; 13; 14; 15; 0; 1; 2; 3; 0; 1; 2; 3; 4; 5; 6; 7; 8; 9; 10; 11; 12; 13; 14; 15].
(** hwy/ops/x86_128-inl.h 13131-13147 *)
Definition table_compress_not32 : list Z := [
  0; 1; 2; 3; 4; 5; 6; 7; 8; 9; 10; 11; 12; 13; 14; 15; 4; 5; 6; 7; 8; 9; 10; 11; 12; 13; 14; 15; 0; 1; 2; 3;
  0; 1; 2; 3; 8; 9; 10; 11; 12; 13; 14; 15; 4; 5; 6; 7; 8; 9; 10; 11; 12; 13; 14; 15; 0; 1; 2; 3; 4; 5; 6; 7;
  0; 1; 2; 3; 4; 5; 6; 7; 12; 13; 14; 15; 8; 9; 10; 11; 4; 5; 6; 7; 12; 13; 14; 15; 0; 1; 2; 3; 8; 9; 10; 11;
  0; 1; 2; 3; 12; 13; 14; 15; 4; 5; 6; 7; 8; 9; 10; 11; 12; 13; 14; 15; 0; 1; 2; 3; 4; 5; 6; 7; 8; 9; 10; 11;
  0; 1; 2; 3; 4; 5; 6; 7; 8; 9; 10; 11; 12; 13; 14; 15; 4; 5; 6; 7; 8; 9; 10; 11; 0; 1; 2; 3; 12; 13; 14; 15;
  0; 1; 2; 3; 8; 9; 10; 11; 4; 5; 6; 7; 12; 13; 14; 15; 8; 9; 10; 11; 0; 1; 2; 3; 4; 5; 6; 7; 12; 13; 14; 15;
  0; 1; 2; 3; 4; 5; 6; 7; 8; 9; 10; 11; 12; 13; 14; 15; 4; 5; 6; 7; 0; 1; 2; 3; 8; 9; 10; 11; 12; 13; 14; 15;
  0; 1; 2; 3; 4; 5; 6; 7; 8; 9; 10; 11; 12; 13; 14; 15; 0; 1; 2; 3; 4; 5; 6; 7; 8; 9; 10; 11; 12; 13; 14; 15].
(** hwy/ops/x86_128-inl.h 13158-13163 *)
Definition table_compress64 : list Z := [
  0; 1; 2; 3; 4; 5; 6; 7; 8; 9; 10; 11; 12; 13; 14; 15; 0; 1; 2; 3; 4; 5; 6; 7; 8; 9; 10; 11; 12; 13; 14; 15;
  8; 9; 10; 11; 12; 13; 14; 15; 0; 1; 2; 3; 4; 5; 6; 7; 0; 1; 2; 3; 4; 5; 6; 7; 8; 9; 10; 11; 12; 13; 14; 15].
(** hwy/ops/x86_128-inl.h 13174-13179 *)
Definition table_compress_not64 : list Z := [
  0; 1; 2; 3; 4; 5; 6; 7; 8; 9; 10; 11; 12; 13; 14; 15; 8; 9; 10; 11; 12; 13; 14; 15; 0; 1; 2; 3; 4; 5; 6; 7;
  0; 1; 2; 3; 4; 5; 6; 7; 8; 9; 10; 11; 12; 13; 14; 15; 0; 1; 2; 3; 4; 5; 6; 7; 8; 9; 10; 11; 12; 13; 14; 15].
