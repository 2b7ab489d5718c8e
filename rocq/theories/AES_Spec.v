(** FIPS-197 (AES), sections 4 and 5, over bytes 0..255. A state is the list
    of 16 bytes with s[r,c] at position r + 4 c (3.4). *)
From Coq Require Import ZArith List Bool.
Import ListNotations.
Local Open Scope Z_scope.

Definition byte (x : Z) : Prop := 0 <= x < 256.
Definition state (s : list Z) : Prop := length s = 16%nat /\ Forall byte s.
(** carry-less product of the first n bits of a with b *)
Fixpoint poly_mul (n : nat) (a b : Z) : Z :=
  match n with O => 0 | S n => Z.lxor (poly_mul n a b) (if Z.testbit a (Z.of_nat n) then Z.shiftl b (Z.of_nat n) else 0) end.
(** remainder modulo m(x) = x^8 + x^4 + x^3 + x + 1 (4.2) of a polynomial of degree < 8 + n *)
Fixpoint poly_mod (n : nat) (p : Z) : Z :=
  match n with O => p | S n => poly_mod n (if Z.testbit p (8 + Z.of_nat n) then Z.lxor p (Z.shiftl 0x11B (Z.of_nat n)) else p) end.
Definition gmul (a b : Z) : Z := poly_mod 8 (poly_mul 8 a b).
Definition bytes : list Z := map Z.of_nat (seq 0 256).
(** 5.1.1: multiplicative inverse ({00} is mapped to itself) ... *)
Definition ginv (x : Z) : Z := match find (fun y => gmul x y =? 1) bytes with Some y => y | None => 0 end.
(** ... followed by the affine transformation (5.1) *)
Definition bit_at (b : Z) (i : nat) : bool := Z.testbit b (Z.of_nat (Nat.modulo i 8)).
Definition affine (b : Z) : Z :=
  fold_right Z.add 0 (map (fun i => Z.b2z (xorb (xorb (xorb (bit_at b i) (bit_at b (i + 4))) (xorb (bit_at b (i + 5)) (bit_at b (i + 6)))) (xorb (bit_at b (i + 7)) (bit_at 0x63 i))) * 2 ^ Z.of_nat i) (seq 0 8)).
Definition sbox (x : Z) : Z := affine (ginv x).
Definition inv_sbox (x : Z) : Z := match find (fun y => sbox y =? x) bytes with Some y => y | None => 0 end.
Definition SubBytes (s : list Z) : list Z := map sbox s.
Definition InvSubBytes (s : list Z) : list Z := map inv_sbox s.
Definition el (s : list Z) (r c : nat) : Z := nth (r + 4 * c) s 0.
Definition make_state (f : nat -> nat -> Z) : list Z := map (fun k => f (Nat.modulo k 4) (Nat.div k 4)) (seq 0 16).
(** 5.1.2, 5.3.1 *)
Definition ShiftRows (s : list Z) : list Z := make_state (fun r c => el s r (Nat.modulo (c + r) 4)).
Definition InvShiftRows (s : list Z) : list Z := make_state (fun r c => el s r (Nat.modulo (c + (4 - r)) 4)).
(** 5.1.3, 5.3.3: each column times the circulant matrix with first row m0 m1 m2 m3 *)
Definition mix (m0 m1 m2 m3 : Z) (s : list Z) : list Z :=
  make_state (fun r c => Z.lxor (Z.lxor (gmul m0 (el s r c)) (gmul m1 (el s (Nat.modulo (r + 1) 4) c))) (Z.lxor (gmul m2 (el s (Nat.modulo (r + 2) 4) c)) (gmul m3 (el s (Nat.modulo (r + 3) 4) c)))).
Definition MixColumns : list Z -> list Z := mix 2 3 1 1.
Definition InvMixColumns : list Z -> list Z := mix 14 11 13 9.
(** 5.1.4 *)
Definition AddRoundKey (s k : list Z) : list Z := map (fun p => Z.lxor (fst p) (snd p)) (combine s k).
(** 5.1, figure 5: cipher with the round keys k0, ks, klast *)
Definition Cipher (inp k0 : list Z) (ks : list (list Z)) (klast : list Z) : list Z :=
  AddRoundKey (ShiftRows (SubBytes (fold_left (fun s k => AddRoundKey (MixColumns (ShiftRows (SubBytes s))) k) ks (AddRoundKey inp k0)))) klast.
(** 5.3, figure 12: inverse cipher *)
Definition InvCipher (inp k0 : list Z) (ks : list (list Z)) (klast : list Z) : list Z :=
  AddRoundKey (InvSubBytes (InvShiftRows (fold_left (fun s k => InvMixColumns (AddRoundKey (InvSubBytes (InvShiftRows s)) k)) (rev ks) (AddRoundKey inp klast)))) k0.
(** 5.2 *)
Definition SubWord (w : list Z) : list Z := map sbox w.
Definition RotWord (w : list Z) : list Z := match w with [a; b; c; d] => [b; c; d; a] | _ => w end.
