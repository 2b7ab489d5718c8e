(** hwy/contrib/bit_pack/bit_pack-inl.h: the bodies of Pack8<1..8> and
    Pack16<1..16>, statement by statement.  [x <- e] is a (re)definition of the
    local vector variable x, [LoadU k] reads the k-th vector of the source
    array, [StoreU e k] writes the k-th vector of the destination array; the
    operand order, shift amounts and constants are those of the source.
    BitCast(d16, LoadU(d8, ..)) / StoreU(BitCast(d8, ..), d8, ..) are written
    LoadU / StoreU in programs whose [cast] flag is true. *)
From Coq Require Import ZArith List String.
From Verif Require Import BitPack_Model.
Import ListNotations.
Local Open Scope string_scope.
Local Open Scope Z_scope.

(** bit_pack-inl.h:50-70, Pack8<1>::Pack *)
Definition pack8_1 : prog := {| cast := true; body := [
  "raw0" <- LoadU 0;
  "raw1" <- LoadU 1;
  "raw2" <- LoadU 2;
  "raw3" <- LoadU 3;
  "raw4" <- LoadU 4;
  "raw5" <- LoadU 5;
  "raw6" <- LoadU 6;
  "raw7" <- LoadU 7;
  "packed" <- Xor3 (Or (ShiftLeft 7 (V "raw7")) (ShiftLeft 6 (V "raw6"))) (Xor3 (ShiftLeft 5 (V "raw5")) (ShiftLeft 4 (V "raw4")) (ShiftLeft 3 (V "raw3"))) (Xor3 (ShiftLeft 2 (V "raw2")) (ShiftLeft 1 (V "raw1")) (V "raw0"));
  StoreU (V "packed") 0 ] |}.

(** bit_pack-inl.h:73-105, Pack8<1>::Unpack *)
Definition unpack8_1 : prog := {| cast := true; body := [
  "mask" <- Set_ 0x101;
  "packed" <- LoadU 0;
  "raw0" <- And (V "packed") (V "mask");
  StoreU (V "raw0") 0;
  "raw1" <- And (ShiftRight 1 (V "packed")) (V "mask");
  StoreU (V "raw1") 1;
  "raw2" <- And (ShiftRight 2 (V "packed")) (V "mask");
  StoreU (V "raw2") 2;
  "raw3" <- And (ShiftRight 3 (V "packed")) (V "mask");
  StoreU (V "raw3") 3;
  "raw4" <- And (ShiftRight 4 (V "packed")) (V "mask");
  StoreU (V "raw4") 4;
  "raw5" <- And (ShiftRight 5 (V "packed")) (V "mask");
  StoreU (V "raw5") 5;
  "raw6" <- And (ShiftRight 6 (V "packed")) (V "mask");
  StoreU (V "raw6") 6;
  "raw7" <- And (ShiftRight 7 (V "packed")) (V "mask");
  StoreU (V "raw7") 7 ] |}.

(** bit_pack-inl.h:111-132, Pack8<2>::Pack *)
Definition pack8_2 : prog := {| cast := true; body := [
  "raw0" <- LoadU 0;
  "raw1" <- LoadU 1;
  "raw2" <- LoadU 2;
  "raw3" <- LoadU 3;
  "raw4" <- LoadU 4;
  "raw5" <- LoadU 5;
  "raw6" <- LoadU 6;
  "raw7" <- LoadU 7;
  "packed0" <- Xor3 (ShiftLeft 6 (V "raw6")) (ShiftLeft 4 (V "raw4")) (Or (ShiftLeft 2 (V "raw2")) (V "raw0"));
  "packed1" <- Xor3 (ShiftLeft 6 (V "raw7")) (ShiftLeft 4 (V "raw5")) (Or (ShiftLeft 2 (V "raw3")) (V "raw1"));
  StoreU (V "packed0") 0;
  StoreU (V "packed1") 1 ] |}.

(** bit_pack-inl.h:135-168, Pack8<2>::Unpack *)
Definition unpack8_2 : prog := {| cast := true; body := [
  "mask" <- Set_ 0x303;
  "packed0" <- LoadU 0;
  "packed1" <- LoadU 1;
  "raw0" <- And (V "packed0") (V "mask");
  StoreU (V "raw0") 0;
  "raw1" <- And (V "packed1") (V "mask");
  StoreU (V "raw1") 1;
  "raw2" <- And (ShiftRight 2 (V "packed0")) (V "mask");
  StoreU (V "raw2") 2;
  "raw3" <- And (ShiftRight 2 (V "packed1")) (V "mask");
  StoreU (V "raw3") 3;
  "raw4" <- And (ShiftRight 4 (V "packed0")) (V "mask");
  StoreU (V "raw4") 4;
  "raw5" <- And (ShiftRight 4 (V "packed1")) (V "mask");
  StoreU (V "raw5") 5;
  "raw6" <- And (ShiftRight 6 (V "packed0")) (V "mask");
  StoreU (V "raw6") 6;
  "raw7" <- And (ShiftRight 6 (V "packed1")) (V "mask");
  StoreU (V "raw7") 7 ] |}.

(** bit_pack-inl.h:174-201, Pack8<3>::Pack *)
Definition pack8_3 : prog := {| cast := true; body := [
  "raw0" <- LoadU 0;
  "raw1" <- LoadU 1;
  "raw2" <- LoadU 2;
  "raw3" <- LoadU 3;
  "raw4" <- LoadU 4;
  "raw5" <- LoadU 5;
  "raw6" <- LoadU 6;
  "raw7" <- LoadU 7;
  "packed0" <- Or (ShiftLeft 3 (V "raw4")) (V "raw0");
  "packed1" <- Or (ShiftLeft 3 (V "raw5")) (V "raw1");
  "packed2" <- Or (ShiftLeft 3 (V "raw6")) (V "raw2");
  "packed3" <- Or (ShiftLeft 3 (V "raw7")) (V "raw3");
  "hi2" <- Set_ 0xC0C0;
  "packed0" <- OrAnd (V "packed0") (ShiftLeft 2 (V "packed3")) (V "hi2");
  "packed1" <- OrAnd (V "packed1") (ShiftLeft 4 (V "packed3")) (V "hi2");
  "packed2" <- OrAnd (V "packed2") (ShiftLeft 6 (V "packed3")) (V "hi2");
  StoreU (V "packed0") 0;
  StoreU (V "packed1") 1;
  StoreU (V "packed2") 2 ] |}.

(** bit_pack-inl.h:204-244, Pack8<3>::Unpack *)
Definition unpack8_3 : prog := {| cast := true; body := [
  "mask" <- Set_ 0x707;
  "packed0" <- LoadU 0;
  "packed1" <- LoadU 1;
  "packed2" <- LoadU 2;
  "raw0" <- And (V "packed0") (V "mask");
  StoreU (V "raw0") 0;
  "raw1" <- And (V "packed1") (V "mask");
  StoreU (V "raw1") 1;
  "raw2" <- And (V "packed2") (V "mask");
  StoreU (V "raw2") 2;
  "raw4" <- And (ShiftRight 3 (V "packed0")) (V "mask");
  StoreU (V "raw4") 4;
  "raw5" <- And (ShiftRight 3 (V "packed1")) (V "mask");
  StoreU (V "raw5") 5;
  "raw6" <- And (ShiftRight 3 (V "packed2")) (V "mask");
  StoreU (V "raw6") 6;
  "hi2" <- Set_ 0xC0C0;
  "raw73" <- Xor3 (ShiftRight 6 (And (V "packed2") (V "hi2"))) (ShiftRight 4 (And (V "packed1") (V "hi2"))) (ShiftRight 2 (And (V "packed0") (V "hi2")));
  "raw3" <- And (V "mask") (V "raw73");
  StoreU (V "raw3") 3;
  "raw7" <- And (V "mask") (ShiftRight 3 (V "raw73"));
  StoreU (V "raw7") 7 ] |}.

(** bit_pack-inl.h:250-274, Pack8<4>::Pack *)
Definition pack8_4 : prog := {| cast := true; body := [
  "raw0" <- LoadU 0;
  "raw1" <- LoadU 1;
  "raw2" <- LoadU 2;
  "raw3" <- LoadU 3;
  "raw4" <- LoadU 4;
  "raw5" <- LoadU 5;
  "raw6" <- LoadU 6;
  "raw7" <- LoadU 7;
  "packed0" <- Or (ShiftLeft 4 (V "raw2")) (V "raw0");
  "packed1" <- Or (ShiftLeft 4 (V "raw3")) (V "raw1");
  "packed2" <- Or (ShiftLeft 4 (V "raw6")) (V "raw4");
  "packed3" <- Or (ShiftLeft 4 (V "raw7")) (V "raw5");
  StoreU (V "packed0") 0;
  StoreU (V "packed1") 1;
  StoreU (V "packed2") 2;
  StoreU (V "packed3") 3 ] |}.

(** bit_pack-inl.h:277-312, Pack8<4>::Unpack *)
Definition unpack8_4 : prog := {| cast := true; body := [
  "mask" <- Set_ 0xF0F;
  "packed0" <- LoadU 0;
  "packed1" <- LoadU 1;
  "packed2" <- LoadU 2;
  "packed3" <- LoadU 3;
  "raw0" <- And (V "packed0") (V "mask");
  StoreU (V "raw0") 0;
  "raw1" <- And (V "packed1") (V "mask");
  StoreU (V "raw1") 1;
  "raw2" <- And (ShiftRight 4 (V "packed0")) (V "mask");
  StoreU (V "raw2") 2;
  "raw3" <- And (ShiftRight 4 (V "packed1")) (V "mask");
  StoreU (V "raw3") 3;
  "raw4" <- And (V "packed2") (V "mask");
  StoreU (V "raw4") 4;
  "raw5" <- And (V "packed3") (V "mask");
  StoreU (V "raw5") 5;
  "raw6" <- And (ShiftRight 4 (V "packed2")) (V "mask");
  StoreU (V "raw6") 6;
  "raw7" <- And (ShiftRight 4 (V "packed3")) (V "mask");
  StoreU (V "raw7") 7 ] |}.

(** bit_pack-inl.h:318-350, Pack8<5>::Pack *)
Definition pack8_5 : prog := {| cast := true; body := [
  "raw0" <- LoadU 0;
  "raw1" <- LoadU 1;
  "raw2" <- LoadU 2;
  "raw3" <- LoadU 3;
  "raw4" <- LoadU 4;
  "raw5" <- LoadU 5;
  "raw6" <- LoadU 6;
  "raw7" <- LoadU 7;
  "hi3" <- Set_ 0xE0E0;
  "packed0" <- OrAnd (V "raw0") (ShiftLeft 3 (V "raw4")) (V "hi3");
  "packed1" <- OrAnd (V "raw1") (ShiftLeft 3 (V "raw5")) (V "hi3");
  "packed2" <- OrAnd (V "raw2") (ShiftLeft 3 (V "raw6")) (V "hi3");
  "packed3" <- OrAnd (V "raw3") (ShiftLeft 3 (V "raw7")) (V "hi3");
  StoreU (V "packed0") 0;
  StoreU (V "packed1") 1;
  StoreU (V "packed2") 2;
  StoreU (V "packed3") 3;
  "lo2" <- Set_ 0x303;
  "packed4" <- Or (And (V "raw4") (V "lo2")) (Xor3 (ShiftLeft 2 (And (V "raw5") (V "lo2"))) (ShiftLeft 4 (And (V "raw6") (V "lo2"))) (ShiftLeft 6 (And (V "raw7") (V "lo2"))));
  StoreU (V "packed4") 4 ] |}.

(** bit_pack-inl.h:353-396, Pack8<5>::Unpack *)
Definition unpack8_5 : prog := {| cast := true; body := [
  "packed0" <- LoadU 0;
  "packed1" <- LoadU 1;
  "packed2" <- LoadU 2;
  "packed3" <- LoadU 3;
  "packed4" <- LoadU 4;
  "mask" <- Set_ 0x1F1F;
  "raw0" <- And (V "packed0") (V "mask");
  StoreU (V "raw0") 0;
  "raw1" <- And (V "packed1") (V "mask");
  StoreU (V "raw1") 1;
  "raw2" <- And (V "packed2") (V "mask");
  StoreU (V "raw2") 2;
  "raw3" <- And (V "packed3") (V "mask");
  StoreU (V "raw3") 3;
  "top4" <- ShiftRight 3 (AndNot (V "mask") (V "packed0"));
  "top5" <- ShiftRight 3 (AndNot (V "mask") (V "packed1"));
  "top6" <- ShiftRight 3 (AndNot (V "mask") (V "packed2"));
  "top7" <- ShiftRight 3 (AndNot (V "mask") (V "packed3"));
  "lo2" <- Set_ 0x303;
  "raw4" <- OrAnd (V "top4") (V "lo2") (V "packed4");
  "raw5" <- OrAnd (V "top5") (V "lo2") (ShiftRight 2 (V "packed4"));
  "raw6" <- OrAnd (V "top6") (V "lo2") (ShiftRight 4 (V "packed4"));
  "raw7" <- OrAnd (V "top7") (V "lo2") (ShiftRight 6 (V "packed4"));
  StoreU (V "raw4") 4;
  StoreU (V "raw5") 5;
  StoreU (V "raw6") 6;
  StoreU (V "raw7") 7 ] |}.

(** bit_pack-inl.h:402-431, Pack8<6>::Pack *)
Definition pack8_6 : prog := {| cast := true; body := [
  "raw0" <- LoadU 0;
  "raw1" <- LoadU 1;
  "raw2" <- LoadU 2;
  "raw3" <- LoadU 3;
  "raw4" <- LoadU 4;
  "raw5" <- LoadU 5;
  "raw6" <- LoadU 6;
  "raw7" <- LoadU 7;
  "hi2" <- Set_ 0xC0C0;
  "packed0" <- OrAnd (V "raw0") (ShiftLeft 2 (V "raw3")) (V "hi2");
  "packed1" <- OrAnd (V "raw1") (ShiftLeft 4 (V "raw3")) (V "hi2");
  "packed2" <- OrAnd (V "raw2") (ShiftLeft 6 (V "raw3")) (V "hi2");
  "packed3" <- OrAnd (V "raw4") (ShiftLeft 2 (V "raw7")) (V "hi2");
  "packed4" <- OrAnd (V "raw5") (ShiftLeft 4 (V "raw7")) (V "hi2");
  "packed5" <- OrAnd (V "raw6") (ShiftLeft 6 (V "raw7")) (V "hi2");
  StoreU (V "packed0") 0;
  StoreU (V "packed1") 1;
  StoreU (V "packed2") 2;
  StoreU (V "packed3") 3;
  StoreU (V "packed4") 4;
  StoreU (V "packed5") 5 ] |}.

(** bit_pack-inl.h:434-475, Pack8<6>::Unpack *)
Definition unpack8_6 : prog := {| cast := true; body := [
  "mask" <- Set_ 0x3F3F;
  "packed0" <- LoadU 0;
  "packed1" <- LoadU 1;
  "packed2" <- LoadU 2;
  "packed3" <- LoadU 3;
  "packed4" <- LoadU 4;
  "packed5" <- LoadU 5;
  "raw0" <- And (V "packed0") (V "mask");
  StoreU (V "raw0") 0;
  "raw1" <- And (V "packed1") (V "mask");
  StoreU (V "raw1") 1;
  "raw2" <- And (V "packed2") (V "mask");
  StoreU (V "raw2") 2;
  "raw4" <- And (V "packed3") (V "mask");
  StoreU (V "raw4") 4;
  "raw5" <- And (V "packed4") (V "mask");
  StoreU (V "raw5") 5;
  "raw6" <- And (V "packed5") (V "mask");
  StoreU (V "raw6") 6;
  "raw3" <- Xor3 (ShiftRight 6 (AndNot (V "mask") (V "packed2"))) (ShiftRight 4 (AndNot (V "mask") (V "packed1"))) (ShiftRight 2 (AndNot (V "mask") (V "packed0")));
  "raw7" <- Xor3 (ShiftRight 6 (AndNot (V "mask") (V "packed5"))) (ShiftRight 4 (AndNot (V "mask") (V "packed4"))) (ShiftRight 2 (AndNot (V "mask") (V "packed3")));
  StoreU (V "raw3") 3;
  StoreU (V "raw7") 7 ] |}.

(** bit_pack-inl.h:481-512, Pack8<7>::Pack *)
Definition pack8_7 : prog := {| cast := true; body := [
  "raw0" <- LoadU 0;
  "raw1" <- LoadU 1;
  "raw2" <- LoadU 2;
  "raw3" <- LoadU 3;
  "raw4" <- LoadU 4;
  "raw5" <- LoadU 5;
  "raw6" <- LoadU 6;
  "raw7" <- LoadU 7;
  "hi1" <- Set_ 0x8080;
  "packed0" <- OrAnd (V "raw0") (Add (V "raw7") (V "raw7")) (V "hi1");
  "packed1" <- OrAnd (V "raw1") (ShiftLeft 2 (V "raw7")) (V "hi1");
  "packed2" <- OrAnd (V "raw2") (ShiftLeft 3 (V "raw7")) (V "hi1");
  "packed3" <- OrAnd (V "raw3") (ShiftLeft 4 (V "raw7")) (V "hi1");
  "packed4" <- OrAnd (V "raw4") (ShiftLeft 5 (V "raw7")) (V "hi1");
  "packed5" <- OrAnd (V "raw5") (ShiftLeft 6 (V "raw7")) (V "hi1");
  "packed6" <- OrAnd (V "raw6") (ShiftLeft 7 (V "raw7")) (V "hi1");
  StoreU (V "packed0") 0;
  StoreU (V "packed1") 1;
  StoreU (V "packed2") 2;
  StoreU (V "packed3") 3;
  StoreU (V "packed4") 4;
  StoreU (V "packed5") 5;
  StoreU (V "packed6") 6 ] |}.

(** bit_pack-inl.h:515-560, Pack8<7>::Unpack *)
Definition unpack8_7 : prog := {| cast := true; body := [
  "packed0" <- LoadU 0;
  "packed1" <- LoadU 1;
  "packed2" <- LoadU 2;
  "packed3" <- LoadU 3;
  "packed4" <- LoadU 4;
  "packed5" <- LoadU 5;
  "packed6" <- LoadU 6;
  "mask" <- Set_ 0x7F7F;
  "raw0" <- And (V "packed0") (V "mask");
  StoreU (V "raw0") 0;
  "raw1" <- And (V "packed1") (V "mask");
  StoreU (V "raw1") 1;
  "raw2" <- And (V "packed2") (V "mask");
  StoreU (V "raw2") 2;
  "raw3" <- And (V "packed3") (V "mask");
  StoreU (V "raw3") 3;
  "raw4" <- And (V "packed4") (V "mask");
  StoreU (V "raw4") 4;
  "raw5" <- And (V "packed5") (V "mask");
  StoreU (V "raw5") 5;
  "raw6" <- And (V "packed6") (V "mask");
  StoreU (V "raw6") 6;
  "p0" <- Xor3 (ShiftRight 7 (AndNot (V "mask") (V "packed6"))) (ShiftRight 6 (AndNot (V "mask") (V "packed5"))) (ShiftRight 5 (AndNot (V "mask") (V "packed4")));
  "p1" <- Xor3 (ShiftRight 4 (AndNot (V "mask") (V "packed3"))) (ShiftRight 3 (AndNot (V "mask") (V "packed2"))) (ShiftRight 2 (AndNot (V "mask") (V "packed1")));
  "raw7" <- Xor3 (ShiftRight 1 (AndNot (V "mask") (V "packed0"))) (V "p0") (V "p1");
  StoreU (V "raw7") 7 ] |}.

(** bit_pack-inl.h:566-587, Pack8<8>::Pack *)
Definition pack8_8 : prog := {| cast := false; body := [
  "raw0" <- LoadU 0;
  "raw1" <- LoadU 1;
  "raw2" <- LoadU 2;
  "raw3" <- LoadU 3;
  "raw4" <- LoadU 4;
  "raw5" <- LoadU 5;
  "raw6" <- LoadU 6;
  "raw7" <- LoadU 7;
  StoreU (V "raw0") 0;
  StoreU (V "raw1") 1;
  StoreU (V "raw2") 2;
  StoreU (V "raw3") 3;
  StoreU (V "raw4") 4;
  StoreU (V "raw5") 5;
  StoreU (V "raw6") 6;
  StoreU (V "raw7") 7 ] |}.

(** bit_pack-inl.h:590-611, Pack8<8>::Unpack *)
Definition unpack8_8 : prog := {| cast := false; body := [
  "raw0" <- LoadU 0;
  "raw1" <- LoadU 1;
  "raw2" <- LoadU 2;
  "raw3" <- LoadU 3;
  "raw4" <- LoadU 4;
  "raw5" <- LoadU 5;
  "raw6" <- LoadU 6;
  "raw7" <- LoadU 7;
  StoreU (V "raw0") 0;
  StoreU (V "raw1") 1;
  StoreU (V "raw2") 2;
  StoreU (V "raw3") 3;
  StoreU (V "raw4") 4;
  StoreU (V "raw5") 5;
  StoreU (V "raw6") 6;
  StoreU (V "raw7") 7 ] |}.

(** bit_pack-inl.h:617-650, Pack16<1>::Pack *)
Definition pack16_1 : prog := {| cast := false; body := [
  "raw0" <- LoadU 0;
  "raw1" <- LoadU 1;
  "raw2" <- LoadU 2;
  "raw3" <- LoadU 3;
  "raw4" <- LoadU 4;
  "raw5" <- LoadU 5;
  "raw6" <- LoadU 6;
  "raw7" <- LoadU 7;
  "raw8" <- LoadU 8;
  "raw9" <- LoadU 9;
  "rawA" <- LoadU 10;
  "rawB" <- LoadU 11;
  "rawC" <- LoadU 12;
  "rawD" <- LoadU 13;
  "rawE" <- LoadU 14;
  "rawF" <- LoadU 15;
  "p0" <- Xor3 (ShiftLeft 2 (V "raw2")) (Add (V "raw1") (V "raw1")) (V "raw0");
  "p1" <- Xor3 (ShiftLeft 5 (V "raw5")) (ShiftLeft 4 (V "raw4")) (ShiftLeft 3 (V "raw3"));
  "p2" <- Xor3 (ShiftLeft 8 (V "raw8")) (ShiftLeft 7 (V "raw7")) (ShiftLeft 6 (V "raw6"));
  "p3" <- Xor3 (ShiftLeft 11 (V "rawB")) (ShiftLeft 10 (V "rawA")) (ShiftLeft 9 (V "raw9"));
  "p4" <- Xor3 (ShiftLeft 14 (V "rawE")) (ShiftLeft 13 (V "rawD")) (ShiftLeft 12 (V "rawC"));
  "packed" <- Or (Xor3 (ShiftLeft 15 (V "rawF")) (V "p0") (V "p1")) (Xor3 (V "p2") (V "p3") (V "p4"));
  StoreU (V "packed") 0 ] |}.

(** bit_pack-inl.h:653-708, Pack16<1>::Unpack *)
Definition unpack16_1 : prog := {| cast := false; body := [
  "mask" <- Set_ 1;
  "packed" <- LoadU 0;
  "raw0" <- And (V "packed") (V "mask");
  StoreU (V "raw0") 0;
  "raw1" <- And (ShiftRight 1 (V "packed")) (V "mask");
  StoreU (V "raw1") 1;
  "raw2" <- And (ShiftRight 2 (V "packed")) (V "mask");
  StoreU (V "raw2") 2;
  "raw3" <- And (ShiftRight 3 (V "packed")) (V "mask");
  StoreU (V "raw3") 3;
  "raw4" <- And (ShiftRight 4 (V "packed")) (V "mask");
  StoreU (V "raw4") 4;
  "raw5" <- And (ShiftRight 5 (V "packed")) (V "mask");
  StoreU (V "raw5") 5;
  "raw6" <- And (ShiftRight 6 (V "packed")) (V "mask");
  StoreU (V "raw6") 6;
  "raw7" <- And (ShiftRight 7 (V "packed")) (V "mask");
  StoreU (V "raw7") 7;
  "raw8" <- And (ShiftRight 8 (V "packed")) (V "mask");
  StoreU (V "raw8") 8;
  "raw9" <- And (ShiftRight 9 (V "packed")) (V "mask");
  StoreU (V "raw9") 9;
  "rawA" <- And (ShiftRight 10 (V "packed")) (V "mask");
  StoreU (V "rawA") 10;
  "rawB" <- And (ShiftRight 11 (V "packed")) (V "mask");
  StoreU (V "rawB") 11;
  "rawC" <- And (ShiftRight 12 (V "packed")) (V "mask");
  StoreU (V "rawC") 12;
  "rawD" <- And (ShiftRight 13 (V "packed")) (V "mask");
  StoreU (V "rawD") 13;
  "rawE" <- And (ShiftRight 14 (V "packed")) (V "mask");
  StoreU (V "rawE") 14;
  "rawF" <- ShiftRight 15 (V "packed");
  StoreU (V "rawF") 15 ] |}.

(** bit_pack-inl.h:714-747, Pack16<2>::Pack *)
Definition pack16_2 : prog := {| cast := false; body := [
  "raw0" <- LoadU 0;
  "raw1" <- LoadU 1;
  "raw2" <- LoadU 2;
  "raw3" <- LoadU 3;
  "raw4" <- LoadU 4;
  "raw5" <- LoadU 5;
  "raw6" <- LoadU 6;
  "raw7" <- LoadU 7;
  "raw8" <- LoadU 8;
  "raw9" <- LoadU 9;
  "rawA" <- LoadU 10;
  "rawB" <- LoadU 11;
  "rawC" <- LoadU 12;
  "rawD" <- LoadU 13;
  "rawE" <- LoadU 14;
  "rawF" <- LoadU 15;
  "packed0" <- Xor3 (ShiftLeft 4 (V "raw4")) (ShiftLeft 2 (V "raw2")) (V "raw0");
  "packed1" <- Xor3 (ShiftLeft 4 (V "raw5")) (ShiftLeft 2 (V "raw3")) (V "raw1");
  "packed0" <- Xor3 (V "packed0") (ShiftLeft 8 (V "raw8")) (ShiftLeft 6 (V "raw6"));
  "packed1" <- Xor3 (V "packed1") (ShiftLeft 8 (V "raw9")) (ShiftLeft 6 (V "raw7"));
  "packed0" <- Xor3 (V "packed0") (ShiftLeft 12 (V "rawC")) (ShiftLeft 10 (V "rawA"));
  "packed1" <- Xor3 (V "packed1") (ShiftLeft 12 (V "rawD")) (ShiftLeft 10 (V "rawB"));
  "packed0" <- Or (V "packed0") (ShiftLeft 14 (V "rawE"));
  "packed1" <- Or (V "packed1") (ShiftLeft 14 (V "rawF"));
  StoreU (V "packed0") 0;
  StoreU (V "packed1") 1 ] |}.

(** bit_pack-inl.h:750-806, Pack16<2>::Unpack *)
Definition unpack16_2 : prog := {| cast := false; body := [
  "mask" <- Set_ 3;
  "packed0" <- LoadU 0;
  "packed1" <- LoadU 1;
  "raw0" <- And (V "packed0") (V "mask");
  StoreU (V "raw0") 0;
  "raw1" <- And (V "packed1") (V "mask");
  StoreU (V "raw1") 1;
  "raw2" <- And (ShiftRight 2 (V "packed0")) (V "mask");
  StoreU (V "raw2") 2;
  "raw3" <- And (ShiftRight 2 (V "packed1")) (V "mask");
  StoreU (V "raw3") 3;
  "raw4" <- And (ShiftRight 4 (V "packed0")) (V "mask");
  StoreU (V "raw4") 4;
  "raw5" <- And (ShiftRight 4 (V "packed1")) (V "mask");
  StoreU (V "raw5") 5;
  "raw6" <- And (ShiftRight 6 (V "packed0")) (V "mask");
  StoreU (V "raw6") 6;
  "raw7" <- And (ShiftRight 6 (V "packed1")) (V "mask");
  StoreU (V "raw7") 7;
  "raw8" <- And (ShiftRight 8 (V "packed0")) (V "mask");
  StoreU (V "raw8") 8;
  "raw9" <- And (ShiftRight 8 (V "packed1")) (V "mask");
  StoreU (V "raw9") 9;
  "rawA" <- And (ShiftRight 10 (V "packed0")) (V "mask");
  StoreU (V "rawA") 10;
  "rawB" <- And (ShiftRight 10 (V "packed1")) (V "mask");
  StoreU (V "rawB") 11;
  "rawC" <- And (ShiftRight 12 (V "packed0")) (V "mask");
  StoreU (V "rawC") 12;
  "rawD" <- And (ShiftRight 12 (V "packed1")) (V "mask");
  StoreU (V "rawD") 13;
  "rawE" <- ShiftRight 14 (V "packed0");
  StoreU (V "rawE") 14;
  "rawF" <- ShiftRight 14 (V "packed1");
  StoreU (V "rawF") 15 ] |}.

(** bit_pack-inl.h:812-850, Pack16<3>::Pack *)
Definition pack16_3 : prog := {| cast := false; body := [
  "raw0" <- LoadU 0;
  "raw1" <- LoadU 1;
  "raw2" <- LoadU 2;
  "raw3" <- LoadU 3;
  "raw4" <- LoadU 4;
  "raw5" <- LoadU 5;
  "raw6" <- LoadU 6;
  "raw7" <- LoadU 7;
  "raw8" <- LoadU 8;
  "raw9" <- LoadU 9;
  "rawA" <- LoadU 10;
  "rawB" <- LoadU 11;
  "rawC" <- LoadU 12;
  "rawD" <- LoadU 13;
  "rawE" <- LoadU 14;
  "rawF" <- LoadU 15;
  "packed0" <- Xor3 (ShiftLeft 6 (V "raw6")) (ShiftLeft 3 (V "raw3")) (V "raw0");
  "packed1" <- Xor3 (ShiftLeft 6 (V "raw7")) (ShiftLeft 3 (V "raw4")) (V "raw1");
  "packed2" <- Xor3 (ShiftLeft 6 (V "raw8")) (ShiftLeft 3 (V "raw5")) (V "raw2");
  "packed0" <- Xor3 (V "packed0") (ShiftLeft 12 (V "rawC")) (ShiftLeft 9 (V "raw9"));
  "packed1" <- Xor3 (V "packed1") (ShiftLeft 12 (V "rawD")) (ShiftLeft 9 (V "rawA"));
  "packed2" <- Xor3 (V "packed2") (ShiftLeft 12 (V "rawE")) (ShiftLeft 9 (V "rawB"));
  "hi1" <- Set_ 0x8000;
  "packed0" <- Or (V "packed0") (ShiftLeft 15 (V "rawF"));
  "packed1" <- OrAnd (V "packed1") (ShiftLeft 14 (V "rawF")) (V "hi1");
  "packed2" <- OrAnd (V "packed2") (ShiftLeft 13 (V "rawF")) (V "hi1");
  StoreU (V "packed0") 0;
  StoreU (V "packed1") 1;
  StoreU (V "packed2") 2 ] |}.

(** bit_pack-inl.h:853-914, Pack16<3>::Unpack *)
Definition unpack16_3 : prog := {| cast := false; body := [
  "mask" <- Set_ 7;
  "packed0" <- LoadU 0;
  "packed1" <- LoadU 1;
  "packed2" <- LoadU 2;
  "raw0" <- And (V "mask") (V "packed0");
  StoreU (V "raw0") 0;
  "raw1" <- And (V "mask") (V "packed1");
  StoreU (V "raw1") 1;
  "raw2" <- And (V "mask") (V "packed2");
  StoreU (V "raw2") 2;
  "raw3" <- And (V "mask") (ShiftRight 3 (V "packed0"));
  StoreU (V "raw3") 3;
  "raw4" <- And (V "mask") (ShiftRight 3 (V "packed1"));
  StoreU (V "raw4") 4;
  "raw5" <- And (V "mask") (ShiftRight 3 (V "packed2"));
  StoreU (V "raw5") 5;
  "raw6" <- And (V "mask") (ShiftRight 6 (V "packed0"));
  StoreU (V "raw6") 6;
  "raw7" <- And (V "mask") (ShiftRight 6 (V "packed1"));
  StoreU (V "raw7") 7;
  "raw8" <- And (V "mask") (ShiftRight 6 (V "packed2"));
  StoreU (V "raw8") 8;
  "raw9" <- And (V "mask") (ShiftRight 9 (V "packed0"));
  StoreU (V "raw9") 9;
  "rawA" <- And (V "mask") (ShiftRight 9 (V "packed1"));
  StoreU (V "rawA") 10;
  "rawB" <- And (V "mask") (ShiftRight 9 (V "packed2"));
  StoreU (V "rawB") 11;
  "rawC" <- And (V "mask") (ShiftRight 12 (V "packed0"));
  StoreU (V "rawC") 12;
  "rawD" <- And (V "mask") (ShiftRight 12 (V "packed1"));
  StoreU (V "rawD") 13;
  "rawE" <- And (V "mask") (ShiftRight 12 (V "packed2"));
  StoreU (V "rawE") 14;
  "down0" <- ShiftRight 15 (V "packed0");
  "down1" <- ShiftRight 15 (V "packed1");
  "down2" <- ShiftRight 15 (V "packed2");
  "rawF" <- Xor3 (ShiftLeft 2 (V "down2")) (Add (V "down1") (V "down1")) (V "down0");
  StoreU (V "rawF") 15 ] |}.

(** bit_pack-inl.h:920-954, Pack16<4>::Pack *)
Definition pack16_4 : prog := {| cast := false; body := [
  "raw0" <- LoadU 0;
  "raw1" <- LoadU 1;
  "raw2" <- LoadU 2;
  "raw3" <- LoadU 3;
  "raw4" <- LoadU 4;
  "raw5" <- LoadU 5;
  "raw6" <- LoadU 6;
  "raw7" <- LoadU 7;
  "raw8" <- LoadU 8;
  "raw9" <- LoadU 9;
  "rawA" <- LoadU 10;
  "rawB" <- LoadU 11;
  "rawC" <- LoadU 12;
  "rawD" <- LoadU 13;
  "rawE" <- LoadU 14;
  "rawF" <- LoadU 15;
  "packed0" <- Xor3 (ShiftLeft 8 (V "raw4")) (ShiftLeft 4 (V "raw2")) (V "raw0");
  "packed1" <- Xor3 (ShiftLeft 8 (V "raw5")) (ShiftLeft 4 (V "raw3")) (V "raw1");
  "packed0" <- Or (V "packed0") (ShiftLeft 12 (V "raw6"));
  "packed1" <- Or (V "packed1") (ShiftLeft 12 (V "raw7"));
  "packed2" <- Xor3 (ShiftLeft 8 (V "rawC")) (ShiftLeft 4 (V "rawA")) (V "raw8");
  "packed3" <- Xor3 (ShiftLeft 8 (V "rawD")) (ShiftLeft 4 (V "rawB")) (V "raw9");
  "packed2" <- Or (V "packed2") (ShiftLeft 12 (V "rawE"));
  "packed3" <- Or (V "packed3") (ShiftLeft 12 (V "rawF"));
  StoreU (V "packed0") 0;
  StoreU (V "packed1") 1;
  StoreU (V "packed2") 2;
  StoreU (V "packed3") 3 ] |}.

(** bit_pack-inl.h:957-1015, Pack16<4>::Unpack *)
Definition unpack16_4 : prog := {| cast := false; body := [
  "mask" <- Set_ 0xF;
  "packed0" <- LoadU 0;
  "packed1" <- LoadU 1;
  "packed2" <- LoadU 2;
  "packed3" <- LoadU 3;
  "raw0" <- And (V "packed0") (V "mask");
  StoreU (V "raw0") 0;
  "raw1" <- And (V "packed1") (V "mask");
  StoreU (V "raw1") 1;
  "raw2" <- And (ShiftRight 4 (V "packed0")) (V "mask");
  StoreU (V "raw2") 2;
  "raw3" <- And (ShiftRight 4 (V "packed1")) (V "mask");
  StoreU (V "raw3") 3;
  "raw4" <- And (ShiftRight 8 (V "packed0")) (V "mask");
  StoreU (V "raw4") 4;
  "raw5" <- And (ShiftRight 8 (V "packed1")) (V "mask");
  StoreU (V "raw5") 5;
  "raw6" <- ShiftRight 12 (V "packed0");
  StoreU (V "raw6") 6;
  "raw7" <- ShiftRight 12 (V "packed1");
  StoreU (V "raw7") 7;
  "raw8" <- And (V "packed2") (V "mask");
  StoreU (V "raw8") 8;
  "raw9" <- And (V "packed3") (V "mask");
  StoreU (V "raw9") 9;
  "rawA" <- And (ShiftRight 4 (V "packed2")) (V "mask");
  StoreU (V "rawA") 10;
  "rawB" <- And (ShiftRight 4 (V "packed3")) (V "mask");
  StoreU (V "rawB") 11;
  "rawC" <- And (ShiftRight 8 (V "packed2")) (V "mask");
  StoreU (V "rawC") 12;
  "rawD" <- And (ShiftRight 8 (V "packed3")) (V "mask");
  StoreU (V "rawD") 13;
  "rawE" <- ShiftRight 12 (V "packed2");
  StoreU (V "rawE") 14;
  "rawF" <- ShiftRight 12 (V "packed3");
  StoreU (V "rawF") 15 ] |}.

(** bit_pack-inl.h:1021-1062, Pack16<5>::Pack *)
Definition pack16_5 : prog := {| cast := false; body := [
  "raw0" <- LoadU 0;
  "raw1" <- LoadU 1;
  "raw2" <- LoadU 2;
  "raw3" <- LoadU 3;
  "raw4" <- LoadU 4;
  "raw5" <- LoadU 5;
  "raw6" <- LoadU 6;
  "raw7" <- LoadU 7;
  "raw8" <- LoadU 8;
  "raw9" <- LoadU 9;
  "rawA" <- LoadU 10;
  "rawB" <- LoadU 11;
  "rawC" <- LoadU 12;
  "rawD" <- LoadU 13;
  "rawE" <- LoadU 14;
  "rawF" <- LoadU 15;
  "packed0" <- Xor3 (ShiftLeft 10 (V "rawA")) (ShiftLeft 5 (V "raw5")) (V "raw0");
  "packed1" <- Xor3 (ShiftLeft 10 (V "rawB")) (ShiftLeft 5 (V "raw6")) (V "raw1");
  "packed2" <- Xor3 (ShiftLeft 10 (V "rawC")) (ShiftLeft 5 (V "raw7")) (V "raw2");
  "packed3" <- Xor3 (ShiftLeft 10 (V "rawD")) (ShiftLeft 5 (V "raw8")) (V "raw3");
  "packed4" <- Xor3 (ShiftLeft 10 (V "rawE")) (ShiftLeft 5 (V "raw9")) (V "raw4");
  "hi1" <- Set_ 0x8000;
  "packed0" <- Or (V "packed0") (ShiftLeft 15 (V "rawF"));
  "packed1" <- OrAnd (V "packed1") (ShiftLeft 14 (V "rawF")) (V "hi1");
  "packed2" <- OrAnd (V "packed2") (ShiftLeft 13 (V "rawF")) (V "hi1");
  "packed3" <- OrAnd (V "packed3") (ShiftLeft 12 (V "rawF")) (V "hi1");
  "packed4" <- OrAnd (V "packed4") (ShiftLeft 11 (V "rawF")) (V "hi1");
  StoreU (V "packed0") 0;
  StoreU (V "packed1") 1;
  StoreU (V "packed2") 2;
  StoreU (V "packed3") 3;
  StoreU (V "packed4") 4 ] |}.

(** bit_pack-inl.h:1065-1132, Pack16<5>::Unpack *)
Definition unpack16_5 : prog := {| cast := false; body := [
  "packed0" <- LoadU 0;
  "packed1" <- LoadU 1;
  "packed2" <- LoadU 2;
  "packed3" <- LoadU 3;
  "packed4" <- LoadU 4;
  "mask" <- Set_ 0x1F;
  "raw0" <- And (V "packed0") (V "mask");
  StoreU (V "raw0") 0;
  "raw1" <- And (V "packed1") (V "mask");
  StoreU (V "raw1") 1;
  "raw2" <- And (V "packed2") (V "mask");
  StoreU (V "raw2") 2;
  "raw3" <- And (V "packed3") (V "mask");
  StoreU (V "raw3") 3;
  "raw4" <- And (V "packed4") (V "mask");
  StoreU (V "raw4") 4;
  "raw5" <- And (ShiftRight 5 (V "packed0")) (V "mask");
  StoreU (V "raw5") 5;
  "raw6" <- And (ShiftRight 5 (V "packed1")) (V "mask");
  StoreU (V "raw6") 6;
  "raw7" <- And (ShiftRight 5 (V "packed2")) (V "mask");
  StoreU (V "raw7") 7;
  "raw8" <- And (ShiftRight 5 (V "packed3")) (V "mask");
  StoreU (V "raw8") 8;
  "raw9" <- And (ShiftRight 5 (V "packed4")) (V "mask");
  StoreU (V "raw9") 9;
  "rawA" <- And (ShiftRight 10 (V "packed0")) (V "mask");
  StoreU (V "rawA") 10;
  "rawB" <- And (ShiftRight 10 (V "packed1")) (V "mask");
  StoreU (V "rawB") 11;
  "rawC" <- And (ShiftRight 10 (V "packed2")) (V "mask");
  StoreU (V "rawC") 12;
  "rawD" <- And (ShiftRight 10 (V "packed3")) (V "mask");
  StoreU (V "rawD") 13;
  "rawE" <- And (ShiftRight 10 (V "packed4")) (V "mask");
  StoreU (V "rawE") 14;
  "down0" <- ShiftRight 15 (V "packed0");
  "down1" <- ShiftRight 15 (V "packed1");
  "hi1" <- Set_ 0x8000;
  "p0" <- Xor3 (ShiftRight 13 (And (V "packed2") (V "hi1"))) (Add (V "down1") (V "down1")) (V "down0");
  "rawF" <- Xor3 (ShiftRight 11 (And (V "packed4") (V "hi1"))) (ShiftRight 12 (And (V "packed3") (V "hi1"))) (V "p0");
  StoreU (V "rawF") 15 ] |}.

(** bit_pack-inl.h:1138-1182, Pack16<6>::Pack *)
Definition pack16_6 : prog := {| cast := false; body := [
  "raw0" <- LoadU 0;
  "raw1" <- LoadU 1;
  "raw2" <- LoadU 2;
  "raw3" <- LoadU 3;
  "raw4" <- LoadU 4;
  "raw5" <- LoadU 5;
  "raw6" <- LoadU 6;
  "raw7" <- LoadU 7;
  "raw8" <- LoadU 8;
  "raw9" <- LoadU 9;
  "rawA" <- LoadU 10;
  "rawB" <- LoadU 11;
  "rawC" <- LoadU 12;
  "rawD" <- LoadU 13;
  "rawE" <- LoadU 14;
  "rawF" <- LoadU 15;
  "packed3" <- Or (ShiftLeft 6 (V "raw7")) (V "raw3");
  "packed7" <- Or (ShiftLeft 6 (V "rawF")) (V "rawB");
  "packed0" <- Xor3 (ShiftLeft 12 (V "packed3")) (ShiftLeft 6 (V "raw4")) (V "raw0");
  "packed1" <- Or (ShiftLeft 6 (V "raw5")) (V "raw1");
  "packed2" <- Or (ShiftLeft 6 (V "raw6")) (V "raw2");
  "packed4" <- Xor3 (ShiftLeft 12 (V "packed7")) (ShiftLeft 6 (V "rawC")) (V "raw8");
  "packed5" <- Or (ShiftLeft 6 (V "rawD")) (V "raw9");
  "packed6" <- Or (ShiftLeft 6 (V "rawE")) (V "rawA");
  "hi4" <- Set_ 0xF000;
  "packed1" <- OrAnd (V "packed1") (ShiftLeft 8 (V "packed3")) (V "hi4");
  "packed2" <- OrAnd (V "packed2") (ShiftLeft 4 (V "packed3")) (V "hi4");
  "packed5" <- OrAnd (V "packed5") (ShiftLeft 8 (V "packed7")) (V "hi4");
  "packed6" <- OrAnd (V "packed6") (ShiftLeft 4 (V "packed7")) (V "hi4");
  StoreU (V "packed0") 0;
  StoreU (V "packed1") 1;
  StoreU (V "packed2") 2;
  StoreU (V "packed4") 3;
  StoreU (V "packed5") 4;
  StoreU (V "packed6") 5 ] |}.

(** bit_pack-inl.h:1185-1253, Pack16<6>::Unpack *)
Definition unpack16_6 : prog := {| cast := false; body := [
  "mask" <- Set_ 0x3F;
  "packed0" <- LoadU 0;
  "packed1" <- LoadU 1;
  "packed2" <- LoadU 2;
  "packed4" <- LoadU 3;
  "packed5" <- LoadU 4;
  "packed6" <- LoadU 5;
  "raw0" <- And (V "packed0") (V "mask");
  StoreU (V "raw0") 0;
  "raw1" <- And (V "packed1") (V "mask");
  StoreU (V "raw1") 1;
  "raw2" <- And (V "packed2") (V "mask");
  StoreU (V "raw2") 2;
  "raw4" <- And (ShiftRight 6 (V "packed0")) (V "mask");
  StoreU (V "raw4") 4;
  "raw5" <- And (ShiftRight 6 (V "packed1")) (V "mask");
  StoreU (V "raw5") 5;
  "raw6" <- And (ShiftRight 6 (V "packed2")) (V "mask");
  StoreU (V "raw6") 6;
  "raw8" <- And (V "packed4") (V "mask");
  StoreU (V "raw8") 8;
  "raw9" <- And (V "packed5") (V "mask");
  StoreU (V "raw9") 9;
  "rawA" <- And (V "packed6") (V "mask");
  StoreU (V "rawA") 10;
  "rawC" <- And (ShiftRight 6 (V "packed4")) (V "mask");
  StoreU (V "rawC") 12;
  "rawD" <- And (ShiftRight 6 (V "packed5")) (V "mask");
  StoreU (V "rawD") 13;
  "rawE" <- And (ShiftRight 6 (V "packed6")) (V "mask");
  StoreU (V "rawE") 14;
  "down0" <- ShiftRight 12 (V "packed0");
  "down4" <- ShiftRight 12 (V "packed4");
  "hi4" <- Set_ 0xF000;
  "packed3" <- Xor3 (ShiftRight 4 (And (V "packed2") (V "hi4"))) (ShiftRight 8 (And (V "packed1") (V "hi4"))) (V "down0");
  "packed7" <- Xor3 (ShiftRight 4 (And (V "packed6") (V "hi4"))) (ShiftRight 8 (And (V "packed5") (V "hi4"))) (V "down4");
  "raw3" <- And (V "packed3") (V "mask");
  StoreU (V "raw3") 3;
  "rawB" <- And (V "packed7") (V "mask");
  StoreU (V "rawB") 11;
  "raw7" <- ShiftRight 6 (V "packed3");
  StoreU (V "raw7") 7;
  "rawF" <- ShiftRight 6 (V "packed7");
  StoreU (V "rawF") 15 ] |}.

(** bit_pack-inl.h:1259-1306, Pack16<7>::Pack *)
Definition pack16_7 : prog := {| cast := false; body := [
  "raw0" <- LoadU 0;
  "raw1" <- LoadU 1;
  "raw2" <- LoadU 2;
  "raw3" <- LoadU 3;
  "raw4" <- LoadU 4;
  "raw5" <- LoadU 5;
  "raw6" <- LoadU 6;
  "raw7" <- LoadU 7;
  "raw8" <- LoadU 8;
  "raw9" <- LoadU 9;
  "rawA" <- LoadU 10;
  "rawB" <- LoadU 11;
  "rawC" <- LoadU 12;
  "rawD" <- LoadU 13;
  "rawE" <- LoadU 14;
  "rawF" <- LoadU 15;
  "packed7" <- Or (ShiftLeft 7 (V "rawF")) (V "raw7");
  "packed0" <- Xor3 (ShiftLeft 14 (V "packed7")) (ShiftLeft 7 (V "raw8")) (V "raw0");
  "packed1" <- Or (ShiftLeft 7 (V "raw9")) (V "raw1");
  "packed2" <- Or (ShiftLeft 7 (V "rawA")) (V "raw2");
  "packed3" <- Or (ShiftLeft 7 (V "rawB")) (V "raw3");
  "packed4" <- Or (ShiftLeft 7 (V "rawC")) (V "raw4");
  "packed5" <- Or (ShiftLeft 7 (V "rawD")) (V "raw5");
  "packed6" <- Or (ShiftLeft 7 (V "rawE")) (V "raw6");
  "hi2" <- Set_ 0xC000;
  "packed1" <- OrAnd (V "packed1") (ShiftLeft 12 (V "packed7")) (V "hi2");
  "packed2" <- OrAnd (V "packed2") (ShiftLeft 10 (V "packed7")) (V "hi2");
  "packed3" <- OrAnd (V "packed3") (ShiftLeft 8 (V "packed7")) (V "hi2");
  "packed4" <- OrAnd (V "packed4") (ShiftLeft 6 (V "packed7")) (V "hi2");
  "packed5" <- OrAnd (V "packed5") (ShiftLeft 4 (V "packed7")) (V "hi2");
  "packed6" <- OrAnd (V "packed6") (ShiftLeft 2 (V "packed7")) (V "hi2");
  StoreU (V "packed0") 0;
  StoreU (V "packed1") 1;
  StoreU (V "packed2") 2;
  StoreU (V "packed3") 3;
  StoreU (V "packed4") 4;
  StoreU (V "packed5") 5;
  StoreU (V "packed6") 6 ] |}.

(** bit_pack-inl.h:1309-1381, Pack16<7>::Unpack *)
Definition unpack16_7 : prog := {| cast := false; body := [
  "packed0" <- LoadU 0;
  "packed1" <- LoadU 1;
  "packed2" <- LoadU 2;
  "packed3" <- LoadU 3;
  "packed4" <- LoadU 4;
  "packed5" <- LoadU 5;
  "packed6" <- LoadU 6;
  "mask" <- Set_ 0x7F;
  "raw0" <- And (V "packed0") (V "mask");
  StoreU (V "raw0") 0;
  "raw1" <- And (V "packed1") (V "mask");
  StoreU (V "raw1") 1;
  "raw2" <- And (V "packed2") (V "mask");
  StoreU (V "raw2") 2;
  "raw3" <- And (V "packed3") (V "mask");
  StoreU (V "raw3") 3;
  "raw4" <- And (V "packed4") (V "mask");
  StoreU (V "raw4") 4;
  "raw5" <- And (V "packed5") (V "mask");
  StoreU (V "raw5") 5;
  "raw6" <- And (V "packed6") (V "mask");
  StoreU (V "raw6") 6;
  "raw8" <- And (ShiftRight 7 (V "packed0")) (V "mask");
  StoreU (V "raw8") 8;
  "raw9" <- And (ShiftRight 7 (V "packed1")) (V "mask");
  StoreU (V "raw9") 9;
  "rawA" <- And (ShiftRight 7 (V "packed2")) (V "mask");
  StoreU (V "rawA") 10;
  "rawB" <- And (ShiftRight 7 (V "packed3")) (V "mask");
  StoreU (V "rawB") 11;
  "rawC" <- And (ShiftRight 7 (V "packed4")) (V "mask");
  StoreU (V "rawC") 12;
  "rawD" <- And (ShiftRight 7 (V "packed5")) (V "mask");
  StoreU (V "rawD") 13;
  "rawE" <- And (ShiftRight 7 (V "packed6")) (V "mask");
  StoreU (V "rawE") 14;
  "down0" <- ShiftRight 14 (V "packed0");
  "hi2" <- Set_ 0xC000;
  "p0" <- Xor3 (ShiftRight 12 (And (V "packed1") (V "hi2"))) (ShiftRight 10 (And (V "packed2") (V "hi2"))) (V "down0");
  "p1" <- Xor3 (ShiftRight 8 (And (V "packed3") (V "hi2"))) (ShiftRight 6 (And (V "packed4") (V "hi2"))) (ShiftRight 4 (And (V "packed5") (V "hi2")));
  "packed7" <- Xor3 (ShiftRight 2 (And (V "packed6") (V "hi2"))) (V "p1") (V "p0");
  "raw7" <- And (V "packed7") (V "mask");
  StoreU (V "raw7") 7;
  "rawF" <- ShiftRight 7 (V "packed7");
  StoreU (V "rawF") 15 ] |}.

(** bit_pack-inl.h:1387-1427, Pack16<8>::Pack *)
Definition pack16_8 : prog := {| cast := false; body := [
  "raw0" <- LoadU 0;
  "raw1" <- LoadU 1;
  "raw2" <- LoadU 2;
  "raw3" <- LoadU 3;
  "raw4" <- LoadU 4;
  "raw5" <- LoadU 5;
  "raw6" <- LoadU 6;
  "raw7" <- LoadU 7;
  "raw8" <- LoadU 8;
  "raw9" <- LoadU 9;
  "rawA" <- LoadU 10;
  "rawB" <- LoadU 11;
  "rawC" <- LoadU 12;
  "rawD" <- LoadU 13;
  "rawE" <- LoadU 14;
  "rawF" <- LoadU 15;
  "packed0" <- Or (ShiftLeft 8 (V "raw2")) (V "raw0");
  "packed1" <- Or (ShiftLeft 8 (V "raw3")) (V "raw1");
  "packed2" <- Or (ShiftLeft 8 (V "raw6")) (V "raw4");
  "packed3" <- Or (ShiftLeft 8 (V "raw7")) (V "raw5");
  "packed4" <- Or (ShiftLeft 8 (V "rawA")) (V "raw8");
  "packed5" <- Or (ShiftLeft 8 (V "rawB")) (V "raw9");
  "packed6" <- Or (ShiftLeft 8 (V "rawE")) (V "rawC");
  "packed7" <- Or (ShiftLeft 8 (V "rawF")) (V "rawD");
  StoreU (V "packed0") 0;
  StoreU (V "packed1") 1;
  StoreU (V "packed2") 2;
  StoreU (V "packed3") 3;
  StoreU (V "packed4") 4;
  StoreU (V "packed5") 5;
  StoreU (V "packed6") 6;
  StoreU (V "packed7") 7 ] |}.

(** bit_pack-inl.h:1430-1492, Pack16<8>::Unpack *)
Definition unpack16_8 : prog := {| cast := false; body := [
  "packed0" <- LoadU 0;
  "packed1" <- LoadU 1;
  "packed2" <- LoadU 2;
  "packed3" <- LoadU 3;
  "packed4" <- LoadU 4;
  "packed5" <- LoadU 5;
  "packed6" <- LoadU 6;
  "packed7" <- LoadU 7;
  "mask" <- Set_ 0xFF;
  "raw0" <- And (V "packed0") (V "mask");
  StoreU (V "raw0") 0;
  "raw1" <- And (V "packed1") (V "mask");
  StoreU (V "raw1") 1;
  "raw2" <- ShiftRight 8 (V "packed0");
  StoreU (V "raw2") 2;
  "raw3" <- ShiftRight 8 (V "packed1");
  StoreU (V "raw3") 3;
  "raw4" <- And (V "packed2") (V "mask");
  StoreU (V "raw4") 4;
  "raw5" <- And (V "packed3") (V "mask");
  StoreU (V "raw5") 5;
  "raw6" <- ShiftRight 8 (V "packed2");
  StoreU (V "raw6") 6;
  "raw7" <- ShiftRight 8 (V "packed3");
  StoreU (V "raw7") 7;
  "raw8" <- And (V "packed4") (V "mask");
  StoreU (V "raw8") 8;
  "raw9" <- And (V "packed5") (V "mask");
  StoreU (V "raw9") 9;
  "rawA" <- ShiftRight 8 (V "packed4");
  StoreU (V "rawA") 10;
  "rawB" <- ShiftRight 8 (V "packed5");
  StoreU (V "rawB") 11;
  "rawC" <- And (V "packed6") (V "mask");
  StoreU (V "rawC") 12;
  "rawD" <- And (V "packed7") (V "mask");
  StoreU (V "rawD") 13;
  "rawE" <- ShiftRight 8 (V "packed6");
  StoreU (V "rawE") 14;
  "rawF" <- ShiftRight 8 (V "packed7");
  StoreU (V "rawF") 15 ] |}.

(** bit_pack-inl.h:1498-1552, Pack16<9>::Pack *)
Definition pack16_9 : prog := {| cast := false; body := [
  "raw0" <- LoadU 0;
  "raw1" <- LoadU 1;
  "raw2" <- LoadU 2;
  "raw3" <- LoadU 3;
  "raw4" <- LoadU 4;
  "raw5" <- LoadU 5;
  "raw6" <- LoadU 6;
  "raw7" <- LoadU 7;
  "raw8" <- LoadU 8;
  "raw9" <- LoadU 9;
  "rawA" <- LoadU 10;
  "rawB" <- LoadU 11;
  "rawC" <- LoadU 12;
  "rawD" <- LoadU 13;
  "rawE" <- LoadU 14;
  "rawF" <- LoadU 15;
  "packed0" <- Or (ShiftLeft 9 (V "raw8")) (V "raw0");
  "packed1" <- Or (ShiftLeft 9 (V "raw9")) (V "raw1");
  "packed2" <- Or (ShiftLeft 9 (V "rawA")) (V "raw2");
  "packed3" <- Or (ShiftLeft 9 (V "rawB")) (V "raw3");
  "packed4" <- Or (ShiftLeft 9 (V "rawC")) (V "raw4");
  "packed5" <- Or (ShiftLeft 9 (V "rawD")) (V "raw5");
  "packed6" <- Or (ShiftLeft 9 (V "rawE")) (V "raw6");
  "packed7" <- Or (ShiftLeft 9 (V "rawF")) (V "raw7");
  "mid2" <- Set_ 0x180;
  "part8" <- ShiftRight 7 (And (V "raw8") (V "mid2"));
  "part9" <- ShiftRight 5 (And (V "raw9") (V "mid2"));
  "partA" <- ShiftRight 3 (And (V "rawA") (V "mid2"));
  "partB" <- ShiftRight 1 (And (V "rawB") (V "mid2"));
  "partC" <- ShiftLeft 1 (And (V "rawC") (V "mid2"));
  "partD" <- ShiftLeft 3 (And (V "rawD") (V "mid2"));
  "partE" <- ShiftLeft 5 (And (V "rawE") (V "mid2"));
  "partF" <- ShiftLeft 7 (And (V "rawF") (V "mid2"));
  "packed8" <- Xor3 (Xor3 (V "part8") (V "part9") (V "partA")) (Xor3 (V "partB") (V "partC") (V "partD")) (Or (V "partE") (V "partF"));
  StoreU (V "packed0") 0;
  StoreU (V "packed1") 1;
  StoreU (V "packed2") 2;
  StoreU (V "packed3") 3;
  StoreU (V "packed4") 4;
  StoreU (V "packed5") 5;
  StoreU (V "packed6") 6;
  StoreU (V "packed7") 7;
  StoreU (V "packed8") 8 ] |}.

(** bit_pack-inl.h:1555-1622, Pack16<9>::Unpack *)
Definition unpack16_9 : prog := {| cast := false; body := [
  "packed0" <- LoadU 0;
  "packed1" <- LoadU 1;
  "packed2" <- LoadU 2;
  "packed3" <- LoadU 3;
  "packed4" <- LoadU 4;
  "packed5" <- LoadU 5;
  "packed6" <- LoadU 6;
  "packed7" <- LoadU 7;
  "packed8" <- LoadU 8;
  "mask" <- Set_ 0x1FF;
  "raw0" <- And (V "packed0") (V "mask");
  StoreU (V "raw0") 0;
  "raw1" <- And (V "packed1") (V "mask");
  StoreU (V "raw1") 1;
  "raw2" <- And (V "packed2") (V "mask");
  StoreU (V "raw2") 2;
  "raw3" <- And (V "packed3") (V "mask");
  StoreU (V "raw3") 3;
  "raw4" <- And (V "packed4") (V "mask");
  StoreU (V "raw4") 4;
  "raw5" <- And (V "packed5") (V "mask");
  StoreU (V "raw5") 5;
  "raw6" <- And (V "packed6") (V "mask");
  StoreU (V "raw6") 6;
  "raw7" <- And (V "packed7") (V "mask");
  StoreU (V "raw7") 7;
  "mid2" <- Set_ 0x180;
  "raw8" <- OrAnd (ShiftRight 9 (V "packed0")) (ShiftLeft 7 (V "packed8")) (V "mid2");
  "raw9" <- OrAnd (ShiftRight 9 (V "packed1")) (ShiftLeft 5 (V "packed8")) (V "mid2");
  "rawA" <- OrAnd (ShiftRight 9 (V "packed2")) (ShiftLeft 3 (V "packed8")) (V "mid2");
  "rawB" <- OrAnd (ShiftRight 9 (V "packed3")) (ShiftLeft 1 (V "packed8")) (V "mid2");
  "rawC" <- OrAnd (ShiftRight 9 (V "packed4")) (ShiftRight 1 (V "packed8")) (V "mid2");
  "rawD" <- OrAnd (ShiftRight 9 (V "packed5")) (ShiftRight 3 (V "packed8")) (V "mid2");
  "rawE" <- OrAnd (ShiftRight 9 (V "packed6")) (ShiftRight 5 (V "packed8")) (V "mid2");
  "rawF" <- OrAnd (ShiftRight 9 (V "packed7")) (ShiftRight 7 (V "packed8")) (V "mid2");
  StoreU (V "raw8") 8;
  StoreU (V "raw9") 9;
  StoreU (V "rawA") 10;
  StoreU (V "rawB") 11;
  StoreU (V "rawC") 12;
  StoreU (V "rawD") 13;
  StoreU (V "rawE") 14;
  StoreU (V "rawF") 15 ] |}.

(** bit_pack-inl.h:1628-1685, Pack16<10>::Pack *)
Definition pack16_10 : prog := {| cast := false; body := [
  "raw0" <- LoadU 0;
  "raw1" <- LoadU 1;
  "raw2" <- LoadU 2;
  "raw3" <- LoadU 3;
  "raw4" <- LoadU 4;
  "raw5" <- LoadU 5;
  "raw6" <- LoadU 6;
  "raw7" <- LoadU 7;
  "raw8" <- LoadU 8;
  "raw9" <- LoadU 9;
  "rawA" <- LoadU 10;
  "rawB" <- LoadU 11;
  "rawC" <- LoadU 12;
  "rawD" <- LoadU 13;
  "rawE" <- LoadU 14;
  "rawF" <- LoadU 15;
  "packed0" <- Or (ShiftLeft 10 (V "raw8")) (V "raw0");
  "packed1" <- Or (ShiftLeft 10 (V "raw9")) (V "raw1");
  "packed2" <- Or (ShiftLeft 10 (V "rawA")) (V "raw2");
  "packed3" <- Or (ShiftLeft 10 (V "rawB")) (V "raw3");
  "packed4" <- Or (ShiftLeft 10 (V "rawC")) (V "raw4");
  "packed5" <- Or (ShiftLeft 10 (V "rawD")) (V "raw5");
  "packed6" <- Or (ShiftLeft 10 (V "rawE")) (V "raw6");
  "packed7" <- Or (ShiftLeft 10 (V "rawF")) (V "raw7");
  "mid4" <- Set_ 0x3C0;
  "part8" <- ShiftRight 6 (And (V "raw8") (V "mid4"));
  "part9" <- ShiftRight 2 (And (V "raw9") (V "mid4"));
  "partA" <- ShiftLeft 2 (And (V "rawA") (V "mid4"));
  "partB" <- ShiftLeft 6 (And (V "rawB") (V "mid4"));
  "partC" <- ShiftRight 6 (And (V "rawC") (V "mid4"));
  "partD" <- ShiftRight 2 (And (V "rawD") (V "mid4"));
  "partE" <- ShiftLeft 2 (And (V "rawE") (V "mid4"));
  "partF" <- ShiftLeft 6 (And (V "rawF") (V "mid4"));
  "packed8" <- Or (Xor3 (V "part8") (V "part9") (V "partA")) (V "partB");
  "packed9" <- Or (Xor3 (V "partC") (V "partD") (V "partE")) (V "partF");
  StoreU (V "packed0") 0;
  StoreU (V "packed1") 1;
  StoreU (V "packed2") 2;
  StoreU (V "packed3") 3;
  StoreU (V "packed4") 4;
  StoreU (V "packed5") 5;
  StoreU (V "packed6") 6;
  StoreU (V "packed7") 7;
  StoreU (V "packed8") 8;
  StoreU (V "packed9") 9 ] |}.

(** bit_pack-inl.h:1688-1756, Pack16<10>::Unpack *)
Definition unpack16_10 : prog := {| cast := false; body := [
  "packed0" <- LoadU 0;
  "packed1" <- LoadU 1;
  "packed2" <- LoadU 2;
  "packed3" <- LoadU 3;
  "packed4" <- LoadU 4;
  "packed5" <- LoadU 5;
  "packed6" <- LoadU 6;
  "packed7" <- LoadU 7;
  "packed8" <- LoadU 8;
  "packed9" <- LoadU 9;
  "mask" <- Set_ 0x3FF;
  "raw0" <- And (V "packed0") (V "mask");
  StoreU (V "raw0") 0;
  "raw1" <- And (V "packed1") (V "mask");
  StoreU (V "raw1") 1;
  "raw2" <- And (V "packed2") (V "mask");
  StoreU (V "raw2") 2;
  "raw3" <- And (V "packed3") (V "mask");
  StoreU (V "raw3") 3;
  "raw4" <- And (V "packed4") (V "mask");
  StoreU (V "raw4") 4;
  "raw5" <- And (V "packed5") (V "mask");
  StoreU (V "raw5") 5;
  "raw6" <- And (V "packed6") (V "mask");
  StoreU (V "raw6") 6;
  "raw7" <- And (V "packed7") (V "mask");
  StoreU (V "raw7") 7;
  "mid4" <- Set_ 0x3C0;
  "raw8" <- OrAnd (ShiftRight 10 (V "packed0")) (ShiftLeft 6 (V "packed8")) (V "mid4");
  "raw9" <- OrAnd (ShiftRight 10 (V "packed1")) (ShiftLeft 2 (V "packed8")) (V "mid4");
  "rawA" <- OrAnd (ShiftRight 10 (V "packed2")) (ShiftRight 2 (V "packed8")) (V "mid4");
  "rawB" <- OrAnd (ShiftRight 10 (V "packed3")) (ShiftRight 6 (V "packed8")) (V "mid4");
  "rawC" <- OrAnd (ShiftRight 10 (V "packed4")) (ShiftLeft 6 (V "packed9")) (V "mid4");
  "rawD" <- OrAnd (ShiftRight 10 (V "packed5")) (ShiftLeft 2 (V "packed9")) (V "mid4");
  "rawE" <- OrAnd (ShiftRight 10 (V "packed6")) (ShiftRight 2 (V "packed9")) (V "mid4");
  "rawF" <- OrAnd (ShiftRight 10 (V "packed7")) (ShiftRight 6 (V "packed9")) (V "mid4");
  StoreU (V "raw8") 8;
  StoreU (V "raw9") 9;
  StoreU (V "rawA") 10;
  StoreU (V "rawB") 11;
  StoreU (V "rawC") 12;
  StoreU (V "rawD") 13;
  StoreU (V "rawE") 14;
  StoreU (V "rawF") 15 ] |}.

(** bit_pack-inl.h:1762-1840, Pack16<11>::Pack *)
Definition pack16_11 : prog := {| cast := false; body := [
  "raw0" <- LoadU 0;
  "raw1" <- LoadU 1;
  "raw2" <- LoadU 2;
  "raw3" <- LoadU 3;
  "raw4" <- LoadU 4;
  "raw5" <- LoadU 5;
  "raw6" <- LoadU 6;
  "raw7" <- LoadU 7;
  "raw8" <- LoadU 8;
  "raw9" <- LoadU 9;
  "rawA" <- LoadU 10;
  "rawB" <- LoadU 11;
  "rawC" <- LoadU 12;
  "rawD" <- LoadU 13;
  "rawE" <- LoadU 14;
  "rawF" <- LoadU 15;
  "lo8" <- Set_ 0xFF;
  "packed0" <- OrAnd (ShiftLeft 8 (V "raw1")) (V "raw0") (V "lo8");
  "packed1" <- OrAnd (ShiftLeft 8 (V "raw3")) (V "raw2") (V "lo8");
  "packed2" <- OrAnd (ShiftLeft 8 (V "raw5")) (V "raw4") (V "lo8");
  "packed3" <- OrAnd (ShiftLeft 8 (V "raw7")) (V "raw6") (V "lo8");
  "packed4" <- OrAnd (ShiftLeft 8 (V "raw9")) (V "raw8") (V "lo8");
  "packed5" <- OrAnd (ShiftLeft 8 (V "rawB")) (V "rawA") (V "lo8");
  "packed6" <- OrAnd (ShiftLeft 8 (V "rawD")) (V "rawC") (V "lo8");
  "packed7" <- OrAnd (ShiftLeft 8 (V "rawF")) (V "rawE") (V "lo8");
  StoreU (V "packed0") 0;
  StoreU (V "packed1") 1;
  StoreU (V "packed2") 2;
  StoreU (V "packed3") 3;
  StoreU (V "packed4") 4;
  StoreU (V "packed5") 5;
  StoreU (V "packed6") 6;
  StoreU (V "packed7") 7;
  "top0" <- ShiftRight 8 (V "raw0");
  "top1" <- ShiftRight 8 (V "raw1");
  "top2" <- ShiftRight 8 (V "raw2");
  "next" <- Set_ 0x38;
  "packed8" <- OrAnd (V "top0") (ShiftRight 5 (V "raw3")) (V "next");
  "packed9" <- OrAnd (V "top1") (ShiftRight 5 (V "raw4")) (V "next");
  "packedA" <- OrAnd (V "top2") (ShiftRight 5 (V "raw5")) (V "next");
  "next" <- ShiftLeft 3 (V "next");
  "packed8" <- OrAnd (V "packed8") (ShiftRight 2 (V "raw6")) (V "next");
  "packed9" <- OrAnd (V "packed9") (ShiftRight 2 (V "raw7")) (V "next");
  "packedA" <- OrAnd (V "packedA") (ShiftRight 2 (V "raw8")) (V "next");
  "next" <- ShiftLeft 3 (V "next");
  "packed8" <- OrAnd (V "packed8") (Add (V "raw9") (V "raw9")) (V "next");
  "packed9" <- OrAnd (V "packed9") (Add (V "rawA") (V "rawA")) (V "next");
  "packedA" <- OrAnd (V "packedA") (Add (V "rawB") (V "rawB")) (V "next");
  "next" <- ShiftLeft 3 (V "next");
  "packed8" <- OrAnd (V "packed8") (ShiftLeft 4 (V "rawC")) (V "next");
  "packed9" <- OrAnd (V "packed9") (ShiftLeft 4 (V "rawD")) (V "next");
  "packedA" <- OrAnd (V "packedA") (ShiftLeft 4 (V "rawE")) (V "next");
  "next" <- ShiftLeft 3 (V "next");
  "packed8" <- OrAnd (V "packed8") (ShiftLeft 7 (V "rawF")) (V "next");
  "packed9" <- OrAnd (V "packed9") (ShiftLeft 6 (V "rawF")) (V "next");
  "packedA" <- OrAnd (V "packedA") (ShiftLeft 5 (V "rawF")) (V "next");
  StoreU (V "packed8") 8;
  StoreU (V "packed9") 9;
  StoreU (V "packedA") 10 ] |}.

(** bit_pack-inl.h:1843-1922, Pack16<11>::Unpack *)
Definition unpack16_11 : prog := {| cast := false; body := [
  "packed0" <- LoadU 0;
  "packed1" <- LoadU 1;
  "packed2" <- LoadU 2;
  "packed3" <- LoadU 3;
  "packed4" <- LoadU 4;
  "packed5" <- LoadU 5;
  "packed6" <- LoadU 6;
  "packed7" <- LoadU 7;
  "packed8" <- LoadU 8;
  "packed9" <- LoadU 9;
  "packedA" <- LoadU 10;
  "mask" <- Set_ 0xFF;
  "down0" <- And (V "packed0") (V "mask");
  "down1" <- ShiftRight 8 (V "packed0");
  "down2" <- And (V "packed1") (V "mask");
  "down3" <- ShiftRight 8 (V "packed1");
  "down4" <- And (V "packed2") (V "mask");
  "down5" <- ShiftRight 8 (V "packed2");
  "down6" <- And (V "packed3") (V "mask");
  "down7" <- ShiftRight 8 (V "packed3");
  "down8" <- And (V "packed4") (V "mask");
  "down9" <- ShiftRight 8 (V "packed4");
  "downA" <- And (V "packed5") (V "mask");
  "downB" <- ShiftRight 8 (V "packed5");
  "downC" <- And (V "packed6") (V "mask");
  "downD" <- ShiftRight 8 (V "packed6");
  "downE" <- And (V "packed7") (V "mask");
  "downF" <- ShiftRight 8 (V "packed7");
  "hi3" <- Set_ 0x700;
  "raw0" <- OrAnd (V "down0") (ShiftLeft 8 (V "packed8")) (V "hi3");
  "raw1" <- OrAnd (V "down1") (ShiftLeft 8 (V "packed9")) (V "hi3");
  "raw2" <- OrAnd (V "down2") (ShiftLeft 8 (V "packedA")) (V "hi3");
  "raw3" <- OrAnd (V "down3") (ShiftLeft 5 (V "packed8")) (V "hi3");
  "raw4" <- OrAnd (V "down4") (ShiftLeft 5 (V "packed9")) (V "hi3");
  "raw5" <- OrAnd (V "down5") (ShiftLeft 5 (V "packedA")) (V "hi3");
  "raw6" <- OrAnd (V "down6") (ShiftLeft 2 (V "packed8")) (V "hi3");
  "raw7" <- OrAnd (V "down7") (ShiftLeft 2 (V "packed9")) (V "hi3");
  "raw8" <- OrAnd (V "down8") (ShiftLeft 2 (V "packedA")) (V "hi3");
  "raw9" <- OrAnd (V "down9") (ShiftRight 1 (V "packed8")) (V "hi3");
  "rawA" <- OrAnd (V "downA") (ShiftRight 1 (V "packed9")) (V "hi3");
  "rawB" <- OrAnd (V "downB") (ShiftRight 1 (V "packedA")) (V "hi3");
  "rawC" <- OrAnd (V "downC") (ShiftRight 4 (V "packed8")) (V "hi3");
  "rawD" <- OrAnd (V "downD") (ShiftRight 4 (V "packed9")) (V "hi3");
  "rawE" <- OrAnd (V "downE") (ShiftRight 4 (V "packedA")) (V "hi3");
  "rawF" <- Or (V "downF") (Xor3 (And (ShiftRight 7 (V "packed8")) (V "hi3")) (And (ShiftRight 6 (V "packed9")) (V "hi3")) (And (ShiftRight 5 (V "packedA")) (V "hi3")));
  StoreU (V "raw0") 0;
  StoreU (V "raw1") 1;
  StoreU (V "raw2") 2;
  StoreU (V "raw3") 3;
  StoreU (V "raw4") 4;
  StoreU (V "raw5") 5;
  StoreU (V "raw6") 6;
  StoreU (V "raw7") 7;
  StoreU (V "raw8") 8;
  StoreU (V "raw9") 9;
  StoreU (V "rawA") 10;
  StoreU (V "rawB") 11;
  StoreU (V "rawC") 12;
  StoreU (V "rawD") 13;
  StoreU (V "rawE") 14;
  StoreU (V "rawF") 15 ] |}.

(** bit_pack-inl.h:1928-1978, Pack16<12>::Pack *)
Definition pack16_12 : prog := {| cast := false; body := [
  "raw0" <- LoadU 0;
  "raw1" <- LoadU 1;
  "raw2" <- LoadU 2;
  "raw3" <- LoadU 3;
  "raw4" <- LoadU 4;
  "raw5" <- LoadU 5;
  "raw6" <- LoadU 6;
  "raw7" <- LoadU 7;
  "raw8" <- LoadU 8;
  "raw9" <- LoadU 9;
  "rawA" <- LoadU 10;
  "rawB" <- LoadU 11;
  "rawC" <- LoadU 12;
  "rawD" <- LoadU 13;
  "rawE" <- LoadU 14;
  "rawF" <- LoadU 15;
  "packed0" <- Or (ShiftLeft 12 (V "raw8")) (V "raw0");
  "packed1" <- Or (ShiftLeft 12 (V "raw9")) (V "raw1");
  "packed2" <- Or (ShiftLeft 12 (V "rawA")) (V "raw2");
  "packed3" <- Or (ShiftLeft 12 (V "rawB")) (V "raw3");
  "packed4" <- Or (ShiftLeft 12 (V "rawC")) (V "raw4");
  "packed5" <- Or (ShiftLeft 12 (V "rawD")) (V "raw5");
  "packed6" <- Or (ShiftLeft 12 (V "rawE")) (V "raw6");
  "packed7" <- Or (ShiftLeft 12 (V "rawF")) (V "raw7");
  "hi8" <- Set_ 0xFF00;
  "packed8" <- OrAnd (ShiftRight 4 (V "raw8")) (ShiftLeft 4 (V "raw9")) (V "hi8");
  "packed9" <- OrAnd (ShiftRight 4 (V "rawA")) (ShiftLeft 4 (V "rawB")) (V "hi8");
  "packedA" <- OrAnd (ShiftRight 4 (V "rawC")) (ShiftLeft 4 (V "rawD")) (V "hi8");
  "packedB" <- OrAnd (ShiftRight 4 (V "rawE")) (ShiftLeft 4 (V "rawF")) (V "hi8");
  StoreU (V "packed0") 0;
  StoreU (V "packed1") 1;
  StoreU (V "packed2") 2;
  StoreU (V "packed3") 3;
  StoreU (V "packed4") 4;
  StoreU (V "packed5") 5;
  StoreU (V "packed6") 6;
  StoreU (V "packed7") 7;
  StoreU (V "packed8") 8;
  StoreU (V "packed9") 9;
  StoreU (V "packedA") 10;
  StoreU (V "packedB") 11 ] |}.

(** bit_pack-inl.h:1981-2050, Pack16<12>::Unpack *)
Definition unpack16_12 : prog := {| cast := false; body := [
  "packed0" <- LoadU 0;
  "packed1" <- LoadU 1;
  "packed2" <- LoadU 2;
  "packed3" <- LoadU 3;
  "packed4" <- LoadU 4;
  "packed5" <- LoadU 5;
  "packed6" <- LoadU 6;
  "packed7" <- LoadU 7;
  "packed8" <- LoadU 8;
  "packed9" <- LoadU 9;
  "packedA" <- LoadU 10;
  "packedB" <- LoadU 11;
  "mask" <- Set_ 0xFFF;
  "raw0" <- And (V "packed0") (V "mask");
  StoreU (V "raw0") 0;
  "raw1" <- And (V "packed1") (V "mask");
  StoreU (V "raw1") 1;
  "raw2" <- And (V "packed2") (V "mask");
  StoreU (V "raw2") 2;
  "raw3" <- And (V "packed3") (V "mask");
  StoreU (V "raw3") 3;
  "raw4" <- And (V "packed4") (V "mask");
  StoreU (V "raw4") 4;
  "raw5" <- And (V "packed5") (V "mask");
  StoreU (V "raw5") 5;
  "raw6" <- And (V "packed6") (V "mask");
  StoreU (V "raw6") 6;
  "raw7" <- And (V "packed7") (V "mask");
  StoreU (V "raw7") 7;
  "mid8" <- Set_ 0xFF0;
  "raw8" <- OrAnd (ShiftRight 12 (V "packed0")) (ShiftLeft 4 (V "packed8")) (V "mid8");
  "raw9" <- OrAnd (ShiftRight 12 (V "packed1")) (ShiftRight 4 (V "packed8")) (V "mid8");
  "rawA" <- OrAnd (ShiftRight 12 (V "packed2")) (ShiftLeft 4 (V "packed9")) (V "mid8");
  "rawB" <- OrAnd (ShiftRight 12 (V "packed3")) (ShiftRight 4 (V "packed9")) (V "mid8");
  "rawC" <- OrAnd (ShiftRight 12 (V "packed4")) (ShiftLeft 4 (V "packedA")) (V "mid8");
  "rawD" <- OrAnd (ShiftRight 12 (V "packed5")) (ShiftRight 4 (V "packedA")) (V "mid8");
  "rawE" <- OrAnd (ShiftRight 12 (V "packed6")) (ShiftLeft 4 (V "packedB")) (V "mid8");
  "rawF" <- OrAnd (ShiftRight 12 (V "packed7")) (ShiftRight 4 (V "packedB")) (V "mid8");
  StoreU (V "raw8") 8;
  StoreU (V "raw9") 9;
  StoreU (V "rawA") 10;
  StoreU (V "rawB") 11;
  StoreU (V "rawC") 12;
  StoreU (V "rawD") 13;
  StoreU (V "rawE") 14;
  StoreU (V "rawF") 15 ] |}.

(** bit_pack-inl.h:2056-2135, Pack16<13>::Pack *)
Definition pack16_13 : prog := {| cast := false; body := [
  "raw0" <- LoadU 0;
  "raw1" <- LoadU 1;
  "raw2" <- LoadU 2;
  "raw3" <- LoadU 3;
  "raw4" <- LoadU 4;
  "raw5" <- LoadU 5;
  "raw6" <- LoadU 6;
  "raw7" <- LoadU 7;
  "raw8" <- LoadU 8;
  "raw9" <- LoadU 9;
  "rawA" <- LoadU 10;
  "rawB" <- LoadU 11;
  "rawC" <- LoadU 12;
  "rawD" <- LoadU 13;
  "rawE" <- LoadU 14;
  "rawF" <- LoadU 15;
  "lo8" <- Set_ 0xFF;
  "packed0" <- OrAnd (ShiftLeft 8 (V "raw1")) (V "raw0") (V "lo8");
  "packed1" <- OrAnd (ShiftLeft 8 (V "raw3")) (V "raw2") (V "lo8");
  "packed2" <- OrAnd (ShiftLeft 8 (V "raw5")) (V "raw4") (V "lo8");
  "packed3" <- OrAnd (ShiftLeft 8 (V "raw7")) (V "raw6") (V "lo8");
  "packed4" <- OrAnd (ShiftLeft 8 (V "raw9")) (V "raw8") (V "lo8");
  "packed5" <- OrAnd (ShiftLeft 8 (V "rawB")) (V "rawA") (V "lo8");
  "packed6" <- OrAnd (ShiftLeft 8 (V "rawD")) (V "rawC") (V "lo8");
  "packed7" <- OrAnd (ShiftLeft 8 (V "rawF")) (V "rawE") (V "lo8");
  StoreU (V "packed0") 0;
  StoreU (V "packed1") 1;
  StoreU (V "packed2") 2;
  StoreU (V "packed3") 3;
  StoreU (V "packed4") 4;
  StoreU (V "packed5") 5;
  StoreU (V "packed6") 6;
  StoreU (V "packed7") 7;
  "top0" <- ShiftRight 8 (V "raw0");
  "top1" <- ShiftRight 8 (V "raw1");
  "top2" <- ShiftRight 8 (V "raw2");
  "top3" <- ShiftRight 8 (V "raw3");
  "top4" <- ShiftRight 8 (V "raw4");
  "next" <- Set_ 0x3E0;
  "packed8" <- OrAnd (V "top0") (ShiftRight 3 (V "raw5")) (V "next");
  "packed9" <- OrAnd (V "top1") (ShiftRight 3 (V "raw6")) (V "next");
  "packedA" <- OrAnd (V "top2") (ShiftRight 3 (V "raw7")) (V "next");
  "packedB" <- OrAnd (V "top3") (ShiftRight 3 (V "raw8")) (V "next");
  "packedC" <- OrAnd (V "top4") (ShiftRight 3 (V "raw9")) (V "next");
  "next" <- ShiftLeft 5 (V "next");
  "packed8" <- OrAnd (V "packed8") (ShiftLeft 2 (V "rawA")) (V "next");
  "packed9" <- OrAnd (V "packed9") (ShiftLeft 2 (V "rawB")) (V "next");
  "packedA" <- OrAnd (V "packedA") (ShiftLeft 2 (V "rawC")) (V "next");
  "packedB" <- OrAnd (V "packedB") (ShiftLeft 2 (V "rawD")) (V "next");
  "packedC" <- OrAnd (V "packedC") (ShiftLeft 2 (V "rawE")) (V "next");
  "next" <- ShiftLeft 3 (V "next");
  "packed8" <- OrAnd (V "packed8") (ShiftLeft 7 (V "rawF")) (V "next");
  "packed9" <- OrAnd (V "packed9") (ShiftLeft 6 (V "rawF")) (V "next");
  "packedA" <- OrAnd (V "packedA") (ShiftLeft 5 (V "rawF")) (V "next");
  "packedB" <- OrAnd (V "packedB") (ShiftLeft 4 (V "rawF")) (V "next");
  "packedC" <- OrAnd (V "packedC") (ShiftLeft 3 (V "rawF")) (V "next");
  StoreU (V "packed8") 8;
  StoreU (V "packed9") 9;
  StoreU (V "packedA") 10;
  StoreU (V "packedB") 11;
  StoreU (V "packedC") 12 ] |}.

(** bit_pack-inl.h:2138-2220, Pack16<13>::Unpack *)
Definition unpack16_13 : prog := {| cast := false; body := [
  "packed0" <- LoadU 0;
  "packed1" <- LoadU 1;
  "packed2" <- LoadU 2;
  "packed3" <- LoadU 3;
  "packed4" <- LoadU 4;
  "packed5" <- LoadU 5;
  "packed6" <- LoadU 6;
  "packed7" <- LoadU 7;
  "packed8" <- LoadU 8;
  "packed9" <- LoadU 9;
  "packedA" <- LoadU 10;
  "packedB" <- LoadU 11;
  "packedC" <- LoadU 12;
  "mask" <- Set_ 0xFF;
  "down0" <- And (V "packed0") (V "mask");
  "down1" <- ShiftRight 8 (V "packed0");
  "down2" <- And (V "packed1") (V "mask");
  "down3" <- ShiftRight 8 (V "packed1");
  "down4" <- And (V "packed2") (V "mask");
  "down5" <- ShiftRight 8 (V "packed2");
  "down6" <- And (V "packed3") (V "mask");
  "down7" <- ShiftRight 8 (V "packed3");
  "down8" <- And (V "packed4") (V "mask");
  "down9" <- ShiftRight 8 (V "packed4");
  "downA" <- And (V "packed5") (V "mask");
  "downB" <- ShiftRight 8 (V "packed5");
  "downC" <- And (V "packed6") (V "mask");
  "downD" <- ShiftRight 8 (V "packed6");
  "downE" <- And (V "packed7") (V "mask");
  "downF" <- ShiftRight 8 (V "packed7");
  "hi5" <- Set_ 0x1F00;
  "raw0" <- OrAnd (V "down0") (ShiftLeft 8 (V "packed8")) (V "hi5");
  "raw1" <- OrAnd (V "down1") (ShiftLeft 8 (V "packed9")) (V "hi5");
  "raw2" <- OrAnd (V "down2") (ShiftLeft 8 (V "packedA")) (V "hi5");
  "raw3" <- OrAnd (V "down3") (ShiftLeft 8 (V "packedB")) (V "hi5");
  "raw4" <- OrAnd (V "down4") (ShiftLeft 8 (V "packedC")) (V "hi5");
  "raw5" <- OrAnd (V "down5") (ShiftLeft 3 (V "packed8")) (V "hi5");
  "raw6" <- OrAnd (V "down6") (ShiftLeft 3 (V "packed9")) (V "hi5");
  "raw7" <- OrAnd (V "down7") (ShiftLeft 3 (V "packedA")) (V "hi5");
  "raw8" <- OrAnd (V "down8") (ShiftLeft 3 (V "packed9")) (V "hi5");
  "raw9" <- OrAnd (V "down9") (ShiftLeft 3 (V "packedA")) (V "hi5");
  "rawA" <- OrAnd (V "downA") (ShiftRight 2 (V "packed8")) (V "hi5");
  "rawB" <- OrAnd (V "downB") (ShiftRight 2 (V "packed9")) (V "hi5");
  "rawC" <- OrAnd (V "downC") (ShiftRight 2 (V "packedA")) (V "hi5");
  "rawD" <- OrAnd (V "downD") (ShiftRight 2 (V "packed9")) (V "hi5");
  "rawE" <- OrAnd (V "downE") (ShiftRight 2 (V "packedA")) (V "hi5");
  "p0" <- Xor3 (And (ShiftRight 7 (V "packed8")) (V "hi5")) (And (ShiftRight 6 (V "packed9")) (V "hi5")) (And (ShiftRight 5 (V "packedA")) (V "hi5"));
  "p1" <- Xor3 (And (ShiftRight 4 (V "packedB")) (V "hi5")) (And (ShiftRight 3 (V "packedC")) (V "hi5")) (V "downF");
  "rawF" <- Or (V "p0") (V "p1");
  StoreU (V "raw0") 0;
  StoreU (V "raw1") 1;
  StoreU (V "raw2") 2;
  StoreU (V "raw3") 3;
  StoreU (V "raw4") 4;
  StoreU (V "raw5") 5;
  StoreU (V "raw6") 6;
  StoreU (V "raw7") 7;
  StoreU (V "raw8") 8;
  StoreU (V "raw9") 9;
  StoreU (V "rawA") 10;
  StoreU (V "rawB") 11;
  StoreU (V "rawC") 12;
  StoreU (V "rawD") 13;
  StoreU (V "rawE") 14;
  StoreU (V "rawF") 15 ] |}.

(** bit_pack-inl.h:2226-2279, Pack16<14>::Pack *)
Definition pack16_14 : prog := {| cast := false; body := [
  "raw0" <- LoadU 0;
  "raw1" <- LoadU 1;
  "raw2" <- LoadU 2;
  "raw3" <- LoadU 3;
  "raw4" <- LoadU 4;
  "raw5" <- LoadU 5;
  "raw6" <- LoadU 6;
  "raw7" <- LoadU 7;
  "raw8" <- LoadU 8;
  "raw9" <- LoadU 9;
  "rawA" <- LoadU 10;
  "rawB" <- LoadU 11;
  "rawC" <- LoadU 12;
  "rawD" <- LoadU 13;
  "rawE" <- LoadU 14;
  "rawF" <- LoadU 15;
  "hi2" <- Set_ 0xC000;
  "packed0" <- Or (V "raw0") (ShiftLeft 14 (V "rawE"));
  "packed1" <- OrAnd (V "raw1") (ShiftLeft 12 (V "rawE")) (V "hi2");
  "packed2" <- OrAnd (V "raw2") (ShiftLeft 10 (V "rawE")) (V "hi2");
  "packed3" <- OrAnd (V "raw3") (ShiftLeft 8 (V "rawE")) (V "hi2");
  "packed4" <- OrAnd (V "raw4") (ShiftLeft 6 (V "rawE")) (V "hi2");
  "packed5" <- OrAnd (V "raw5") (ShiftLeft 4 (V "rawE")) (V "hi2");
  "packed6" <- OrAnd (V "raw6") (ShiftLeft 2 (V "rawE")) (V "hi2");
  "packed7" <- Or (V "raw7") (ShiftLeft 14 (V "rawF"));
  "packed8" <- OrAnd (V "raw8") (ShiftLeft 12 (V "rawF")) (V "hi2");
  "packed9" <- OrAnd (V "raw9") (ShiftLeft 10 (V "rawF")) (V "hi2");
  "packedA" <- OrAnd (V "rawA") (ShiftLeft 8 (V "rawF")) (V "hi2");
  "packedB" <- OrAnd (V "rawB") (ShiftLeft 6 (V "rawF")) (V "hi2");
  "packedC" <- OrAnd (V "rawC") (ShiftLeft 4 (V "rawF")) (V "hi2");
  "packedD" <- OrAnd (V "rawD") (ShiftLeft 2 (V "rawF")) (V "hi2");
  StoreU (V "packed0") 0;
  StoreU (V "packed1") 1;
  StoreU (V "packed2") 2;
  StoreU (V "packed3") 3;
  StoreU (V "packed4") 4;
  StoreU (V "packed5") 5;
  StoreU (V "packed6") 6;
  StoreU (V "packed7") 7;
  StoreU (V "packed8") 8;
  StoreU (V "packed9") 9;
  StoreU (V "packedA") 10;
  StoreU (V "packedB") 11;
  StoreU (V "packedC") 12;
  StoreU (V "packedD") 13 ] |}.

(** bit_pack-inl.h:2282-2363, Pack16<14>::Unpack *)
Definition unpack16_14 : prog := {| cast := false; body := [
  "packed0" <- LoadU 0;
  "packed1" <- LoadU 1;
  "packed2" <- LoadU 2;
  "packed3" <- LoadU 3;
  "packed4" <- LoadU 4;
  "packed5" <- LoadU 5;
  "packed6" <- LoadU 6;
  "packed7" <- LoadU 7;
  "packed8" <- LoadU 8;
  "packed9" <- LoadU 9;
  "packedA" <- LoadU 10;
  "packedB" <- LoadU 11;
  "packedC" <- LoadU 12;
  "packedD" <- LoadU 13;
  "mask" <- Set_ 0x3FFF;
  "raw0" <- And (V "packed0") (V "mask");
  StoreU (V "raw0") 0;
  "raw1" <- And (V "packed1") (V "mask");
  StoreU (V "raw1") 1;
  "raw2" <- And (V "packed2") (V "mask");
  StoreU (V "raw2") 2;
  "raw3" <- And (V "packed3") (V "mask");
  StoreU (V "raw3") 3;
  "raw4" <- And (V "packed4") (V "mask");
  StoreU (V "raw4") 4;
  "raw5" <- And (V "packed5") (V "mask");
  StoreU (V "raw5") 5;
  "raw6" <- And (V "packed6") (V "mask");
  StoreU (V "raw6") 6;
  "raw7" <- And (V "packed7") (V "mask");
  StoreU (V "raw7") 7;
  "raw8" <- And (V "packed8") (V "mask");
  StoreU (V "raw8") 8;
  "raw9" <- And (V "packed9") (V "mask");
  StoreU (V "raw9") 9;
  "rawA" <- And (V "packedA") (V "mask");
  StoreU (V "rawA") 10;
  "rawB" <- And (V "packedB") (V "mask");
  StoreU (V "rawB") 11;
  "rawC" <- And (V "packedC") (V "mask");
  StoreU (V "rawC") 12;
  "rawD" <- And (V "packedD") (V "mask");
  StoreU (V "rawD") 13;
  "E0" <- Xor3 (ShiftRight 14 (V "packed0")) (ShiftRight 12 (AndNot (V "mask") (V "packed1"))) (ShiftRight 10 (AndNot (V "mask") (V "packed2")));
  "E1" <- Xor3 (ShiftRight 8 (AndNot (V "mask") (V "packed3"))) (ShiftRight 6 (AndNot (V "mask") (V "packed4"))) (ShiftRight 4 (AndNot (V "mask") (V "packed5")));
  "rawE" <- Xor3 (ShiftRight 2 (AndNot (V "mask") (V "packed6"))) (V "E0") (V "E1");
  "F0" <- Xor3 (ShiftRight 14 (AndNot (V "mask") (V "packed7"))) (ShiftRight 12 (AndNot (V "mask") (V "packed8"))) (ShiftRight 10 (AndNot (V "mask") (V "packed9")));
  "F1" <- Xor3 (ShiftRight 8 (AndNot (V "mask") (V "packedA"))) (ShiftRight 6 (AndNot (V "mask") (V "packedB"))) (ShiftRight 4 (AndNot (V "mask") (V "packedC")));
  "rawF" <- Xor3 (ShiftRight 2 (AndNot (V "mask") (V "packedD"))) (V "F0") (V "F1");
  StoreU (V "rawE") 14;
  StoreU (V "rawF") 15 ] |}.

(** bit_pack-inl.h:2369-2424, Pack16<15>::Pack *)
Definition pack16_15 : prog := {| cast := false; body := [
  "raw0" <- LoadU 0;
  "raw1" <- LoadU 1;
  "raw2" <- LoadU 2;
  "raw3" <- LoadU 3;
  "raw4" <- LoadU 4;
  "raw5" <- LoadU 5;
  "raw6" <- LoadU 6;
  "raw7" <- LoadU 7;
  "raw8" <- LoadU 8;
  "raw9" <- LoadU 9;
  "rawA" <- LoadU 10;
  "rawB" <- LoadU 11;
  "rawC" <- LoadU 12;
  "rawD" <- LoadU 13;
  "rawE" <- LoadU 14;
  "rawF" <- LoadU 15;
  "hi1" <- Set_ 0x8000;
  "packed0" <- Or (V "raw0") (ShiftLeft 15 (V "rawF"));
  "packed1" <- OrAnd (V "raw1") (ShiftLeft 14 (V "rawF")) (V "hi1");
  "packed2" <- OrAnd (V "raw2") (ShiftLeft 13 (V "rawF")) (V "hi1");
  "packed3" <- OrAnd (V "raw3") (ShiftLeft 12 (V "rawF")) (V "hi1");
  "packed4" <- OrAnd (V "raw4") (ShiftLeft 11 (V "rawF")) (V "hi1");
  "packed5" <- OrAnd (V "raw5") (ShiftLeft 10 (V "rawF")) (V "hi1");
  "packed6" <- OrAnd (V "raw6") (ShiftLeft 9 (V "rawF")) (V "hi1");
  "packed7" <- OrAnd (V "raw7") (ShiftLeft 8 (V "rawF")) (V "hi1");
  "packed8" <- OrAnd (V "raw8") (ShiftLeft 7 (V "rawF")) (V "hi1");
  "packed9" <- OrAnd (V "raw9") (ShiftLeft 6 (V "rawF")) (V "hi1");
  "packedA" <- OrAnd (V "rawA") (ShiftLeft 5 (V "rawF")) (V "hi1");
  "packedB" <- OrAnd (V "rawB") (ShiftLeft 4 (V "rawF")) (V "hi1");
  "packedC" <- OrAnd (V "rawC") (ShiftLeft 3 (V "rawF")) (V "hi1");
  "packedD" <- OrAnd (V "rawD") (ShiftLeft 2 (V "rawF")) (V "hi1");
  "packedE" <- OrAnd (V "rawE") (ShiftLeft 1 (V "rawF")) (V "hi1");
  StoreU (V "packed0") 0;
  StoreU (V "packed1") 1;
  StoreU (V "packed2") 2;
  StoreU (V "packed3") 3;
  StoreU (V "packed4") 4;
  StoreU (V "packed5") 5;
  StoreU (V "packed6") 6;
  StoreU (V "packed7") 7;
  StoreU (V "packed8") 8;
  StoreU (V "packed9") 9;
  StoreU (V "packedA") 10;
  StoreU (V "packedB") 11;
  StoreU (V "packedC") 12;
  StoreU (V "packedD") 13;
  StoreU (V "packedE") 14 ] |}.

(** bit_pack-inl.h:2427-2513, Pack16<15>::Unpack *)
Definition unpack16_15 : prog := {| cast := false; body := [
  "packed0" <- LoadU 0;
  "packed1" <- LoadU 1;
  "packed2" <- LoadU 2;
  "packed3" <- LoadU 3;
  "packed4" <- LoadU 4;
  "packed5" <- LoadU 5;
  "packed6" <- LoadU 6;
  "packed7" <- LoadU 7;
  "packed8" <- LoadU 8;
  "packed9" <- LoadU 9;
  "packedA" <- LoadU 10;
  "packedB" <- LoadU 11;
  "packedC" <- LoadU 12;
  "packedD" <- LoadU 13;
  "packedE" <- LoadU 14;
  "mask" <- Set_ 0x7FFF;
  "raw0" <- And (V "packed0") (V "mask");
  StoreU (V "raw0") 0;
  "raw1" <- And (V "packed1") (V "mask");
  StoreU (V "raw1") 1;
  "raw2" <- And (V "packed2") (V "mask");
  StoreU (V "raw2") 2;
  "raw3" <- And (V "packed3") (V "mask");
  StoreU (V "raw3") 3;
  "raw4" <- And (V "packed4") (V "mask");
  StoreU (V "raw4") 4;
  "raw5" <- And (V "packed5") (V "mask");
  StoreU (V "raw5") 5;
  "raw6" <- And (V "packed6") (V "mask");
  StoreU (V "raw6") 6;
  "raw7" <- And (V "packed7") (V "mask");
  StoreU (V "raw7") 7;
  "raw8" <- And (V "packed8") (V "mask");
  StoreU (V "raw8") 8;
  "raw9" <- And (V "packed9") (V "mask");
  StoreU (V "raw9") 9;
  "rawA" <- And (V "packedA") (V "mask");
  StoreU (V "rawA") 10;
  "rawB" <- And (V "packedB") (V "mask");
  StoreU (V "rawB") 11;
  "rawC" <- And (V "packedC") (V "mask");
  StoreU (V "rawC") 12;
  "rawD" <- And (V "packedD") (V "mask");
  StoreU (V "rawD") 13;
  "rawE" <- And (V "packedE") (V "mask");
  StoreU (V "rawE") 14;
  "F0" <- Xor3 (ShiftRight 15 (V "packed0")) (ShiftRight 14 (AndNot (V "mask") (V "packed1"))) (ShiftRight 13 (AndNot (V "mask") (V "packed2")));
  "F1" <- Xor3 (ShiftRight 12 (AndNot (V "mask") (V "packed3"))) (ShiftRight 11 (AndNot (V "mask") (V "packed4"))) (ShiftRight 10 (AndNot (V "mask") (V "packed5")));
  "F2" <- Xor3 (ShiftRight 9 (AndNot (V "mask") (V "packed6"))) (ShiftRight 8 (AndNot (V "mask") (V "packed7"))) (ShiftRight 7 (AndNot (V "mask") (V "packed8")));
  "F3" <- Xor3 (ShiftRight 6 (AndNot (V "mask") (V "packed9"))) (ShiftRight 5 (AndNot (V "mask") (V "packedA"))) (ShiftRight 4 (AndNot (V "mask") (V "packedB")));
  "F4" <- Xor3 (ShiftRight 3 (AndNot (V "mask") (V "packedC"))) (ShiftRight 2 (AndNot (V "mask") (V "packedD"))) (ShiftRight 1 (AndNot (V "mask") (V "packedE")));
  "rawF" <- Xor3 (V "F0") (V "F1") (Xor3 (V "F2") (V "F3") (V "F4"));
  StoreU (V "rawF") 15 ] |}.

(** bit_pack-inl.h:2519-2556, Pack16<16>::Pack *)
Definition pack16_16 : prog := {| cast := false; body := [
  "raw0" <- LoadU 0;
  "raw1" <- LoadU 1;
  "raw2" <- LoadU 2;
  "raw3" <- LoadU 3;
  "raw4" <- LoadU 4;
  "raw5" <- LoadU 5;
  "raw6" <- LoadU 6;
  "raw7" <- LoadU 7;
  "raw8" <- LoadU 8;
  "raw9" <- LoadU 9;
  "rawA" <- LoadU 10;
  "rawB" <- LoadU 11;
  "rawC" <- LoadU 12;
  "rawD" <- LoadU 13;
  "rawE" <- LoadU 14;
  "rawF" <- LoadU 15;
  StoreU (V "raw0") 0;
  StoreU (V "raw1") 1;
  StoreU (V "raw2") 2;
  StoreU (V "raw3") 3;
  StoreU (V "raw4") 4;
  StoreU (V "raw5") 5;
  StoreU (V "raw6") 6;
  StoreU (V "raw7") 7;
  StoreU (V "raw8") 8;
  StoreU (V "raw9") 9;
  StoreU (V "rawA") 10;
  StoreU (V "rawB") 11;
  StoreU (V "rawC") 12;
  StoreU (V "rawD") 13;
  StoreU (V "rawE") 14;
  StoreU (V "rawF") 15 ] |}.

(** bit_pack-inl.h:2559-2597, Pack16<16>::Unpack *)
Definition unpack16_16 : prog := {| cast := false; body := [
  "raw0" <- LoadU 0;
  "raw1" <- LoadU 1;
  "raw2" <- LoadU 2;
  "raw3" <- LoadU 3;
  "raw4" <- LoadU 4;
  "raw5" <- LoadU 5;
  "raw6" <- LoadU 6;
  "raw7" <- LoadU 7;
  "raw8" <- LoadU 8;
  "raw9" <- LoadU 9;
  "rawA" <- LoadU 10;
  "rawB" <- LoadU 11;
  "rawC" <- LoadU 12;
  "rawD" <- LoadU 13;
  "rawE" <- LoadU 14;
  "rawF" <- LoadU 15;
  StoreU (V "raw0") 0;
  StoreU (V "raw1") 1;
  StoreU (V "raw2") 2;
  StoreU (V "raw3") 3;
  StoreU (V "raw4") 4;
  StoreU (V "raw5") 5;
  StoreU (V "raw6") 6;
  StoreU (V "raw7") 7;
  StoreU (V "raw8") 8;
  StoreU (V "raw9") 9;
  StoreU (V "rawA") 10;
  StoreU (V "rawB") 11;
  StoreU (V "rawC") 12;
  StoreU (V "rawD") 13;
  StoreU (V "rawE") 14;
  StoreU (V "rawF") 15 ] |}.

(** The class template Pack8<kBits>: only kBits = 1..8 are specialized (bit_pack-inl.h:40-46). *)
Definition pack8 (kBits : Z) : option prog :=
  match kBits with
  | 1 => Some pack8_1
  | 2 => Some pack8_2
  | 3 => Some pack8_3
  | 4 => Some pack8_4
  | 5 => Some pack8_5
  | 6 => Some pack8_6
  | 7 => Some pack8_7
  | 8 => Some pack8_8
  | _ => None
  end.

(** The class template Pack8<kBits>: only kBits = 1..8 are specialized (bit_pack-inl.h:40-46). *)
Definition unpack8 (kBits : Z) : option prog :=
  match kBits with
  | 1 => Some unpack8_1
  | 2 => Some unpack8_2
  | 3 => Some unpack8_3
  | 4 => Some unpack8_4
  | 5 => Some unpack8_5
  | 6 => Some unpack8_6
  | 7 => Some unpack8_7
  | 8 => Some unpack8_8
  | _ => None
  end.

(** The class template Pack16<kBits>: only kBits = 1..16 are specialized (bit_pack-inl.h:40-46). *)
Definition pack16 (kBits : Z) : option prog :=
  match kBits with
  | 1 => Some pack16_1
  | 2 => Some pack16_2
  | 3 => Some pack16_3
  | 4 => Some pack16_4
  | 5 => Some pack16_5
  | 6 => Some pack16_6
  | 7 => Some pack16_7
  | 8 => Some pack16_8
  | 9 => Some pack16_9
  | 10 => Some pack16_10
  | 11 => Some pack16_11
  | 12 => Some pack16_12
  | 13 => Some pack16_13
  | 14 => Some pack16_14
  | 15 => Some pack16_15
  | 16 => Some pack16_16
  | _ => None
  end.

(** The class template Pack16<kBits>: only kBits = 1..16 are specialized (bit_pack-inl.h:40-46). *)
Definition unpack16 (kBits : Z) : option prog :=
  match kBits with
  | 1 => Some unpack16_1
  | 2 => Some unpack16_2
  | 3 => Some unpack16_3
  | 4 => Some unpack16_4
  | 5 => Some unpack16_5
  | 6 => Some unpack16_6
  | 7 => Some unpack16_7
  | 8 => Some unpack16_8
  | 9 => Some unpack16_9
  | 10 => Some unpack16_10
  | 11 => Some unpack16_11
  | 12 => Some unpack16_12
  | 13 => Some unpack16_13
  | 14 => Some unpack16_14
  | 15 => Some unpack16_15
  | 16 => Some unpack16_16
  | _ => None
  end.
