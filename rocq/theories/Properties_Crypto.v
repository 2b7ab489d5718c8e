(** C71-C73: the portable AES, carry-less multiplication and population count
    of hwy/ops/generic_ops-inl.h. Specification: FIPS-197 in AES_Spec.v;
    [poly_mul] there is the product of polynomials over GF(2). *)
From Coq Require Import ZArith List Bool Lia.
From Verif Require Import Word Word_Proofs Ops_Model Crypto_Model CLMul_Proofs AES_Spec Crypto_Proofs.
Import ListNotations.
Local Open Scope Z_scope.

Opaque InvMixColumns MixColumns inv_mix_columns mix_columns inv_sbox sbox AddRoundKey.
Lemma vxor_ark s k : vxor s k = AddRoundKey s k. Proof. Transparent AddRoundKey. reflexivity. Qed.
Opaque AddRoundKey.
(** C71: for every state and round key, the AES operations are the FIPS-197
    transformations documented in quick_reference.md *)
Theorem C71_aes_rounds : forall s k, state s -> state k ->
  aes_round s k = AddRoundKey (MixColumns (ShiftRows (SubBytes s))) k /\
  aes_last_round s k = AddRoundKey (ShiftRows (SubBytes s)) k /\
  aes_inv_mix_columns s = InvMixColumns s /\
  aes_round_inv s k = AddRoundKey (InvMixColumns (InvSubBytes (InvShiftRows s))) k /\
  aes_last_round_inv s k = AddRoundKey (InvSubBytes (InvShiftRows s)) k.
Proof.
  intros s k Hs Hk. pose proof (state_sub s Hs) as S1. pose proof (state_shift _ S1) as S2. pose proof (state_inv_sub s Hs) as T1. pose proof (state_inv_shift _ T1) as T2.
  unfold aes_round, aes_last_round, aes_inv_mix_columns, aes_round_inv, aes_last_round_inv.
  rewrite (sub_bytes_ok s) by apply Hs. rewrite (inv_sub_bytes_ok s) by apply Hs. rewrite (shift_rows_ok _ S1), (inv_shift_rows_ok _ T1), (mix_columns_ok _ S2), (inv_mix_columns_ok s Hs), (inv_mix_columns_ok _ T2), (inv_sub_shift s Hs).
  repeat split; reflexivity.
Qed.
Lemma state_round s k : state s -> state k -> state (AddRoundKey (MixColumns (ShiftRows (SubBytes s))) k).
Proof. intros. apply state_ark; [|assumption]. apply state_mix, state_shift, state_sub. assumption. Qed.
(** Encryption written with the operations (quick_reference: XOR the first
    round key, AESRound for the middle ones, AESLastRound for the last) *)
Definition encrypt (p k0 : list Z) (ks : list (list Z)) (kl : list Z) : list Z := aes_last_round (fold_left aes_round ks (vxor p k0)) kl.
(** Decryption: round keys in reverse order, the middle ones passed through AESInvMixColumns *)
Definition decrypt (c k0 : list Z) (ks : list (list Z)) (kl : list Z) : list Z :=
  aes_last_round_inv (fold_left aes_round_inv (map aes_inv_mix_columns (rev ks)) (vxor c kl)) k0.
Lemma enc_fold ks : Forall state ks -> forall s, state s ->
  fold_left aes_round ks s = fold_left (fun s k => AddRoundKey (MixColumns (ShiftRows (SubBytes s))) k) ks s /\ state (fold_left aes_round ks s).
Proof.
  induction 1 as [|k ks Hk Hks IH]; intros s Hs; [cbn; auto|]. cbn [fold_left]. destruct (C71_aes_rounds s k Hs Hk) as (E & _). rewrite E. apply IH. apply state_round; assumption.
Qed.
Definition inv_round (s k : list Z) : list Z := InvMixColumns (AddRoundKey (InvSubBytes (InvShiftRows s)) k).
Lemma fold_map_gen (f h : list Z -> list Z -> list Z) (g : list Z -> list Z) (P : list Z -> Prop) : (forall s k, P s -> P k -> f s (g k) = h s k /\ P (h s k)) ->
  forall ks, Forall P ks -> forall s, P s -> fold_left f (map g ks) s = fold_left h ks s /\ P (fold_left h ks s).
Proof.
  intros H ks Hks. induction Hks as [|k ks Hk Hks IH]; intros s Hs; [split; [reflexivity|exact Hs]|]. cbn [fold_left map]. destruct (H s k Hs Hk) as (E & HP). rewrite E. apply IH. exact HP.
Qed.
Lemma dec_step s k : state s -> state k -> aes_round_inv s (aes_inv_mix_columns k) = inv_round s k /\ state (inv_round s k).
Proof.
  intros Hs Hk. assert (Hi : state (InvSubBytes (InvShiftRows s))) by (apply state_inv_sub, state_inv_shift; assumption).
  split; [|exact (state_inv_mix _ (state_ark _ _ Hi Hk))].
  destruct (C71_aes_rounds k k Hk Hk) as (_ & _ & E0 & _). rewrite E0. destruct (C71_aes_rounds s (InvMixColumns k) Hs (state_inv_mix k Hk)) as (_ & _ & _ & E & _). rewrite E. symmetry. exact (inv_mix_ark _ _ Hi Hk).
Qed.
Lemma dec_fold ks : Forall state ks -> forall s, state s ->
  fold_left aes_round_inv (map aes_inv_mix_columns ks) s = fold_left inv_round ks s /\ state (fold_left inv_round ks s).
Proof. exact (fold_map_gen _ _ _ state dec_step ks). Qed.
Lemma inv_round_round s k : state s -> state k -> state (AddRoundKey (MixColumns (ShiftRows (SubBytes s))) k) /\
  AddRoundKey (AddRoundKey (MixColumns (ShiftRows (SubBytes s))) k) k = MixColumns (ShiftRows (SubBytes s)).
Proof.
  intros. split; [apply state_round; assumption|]. apply ark_ark; [|assumption]. apply state_mix, state_shift, state_sub. assumption.
Qed.
(** C71: whole encryption and decryption, any number of rounds, any keys *)
Theorem C71_aes_cipher : forall p k0 ks kl, state p -> state k0 -> Forall state ks -> state kl ->
  encrypt p k0 ks kl = Cipher p k0 ks kl /\ decrypt p k0 ks kl = InvCipher p k0 ks kl /\
  decrypt (encrypt p k0 ks kl) k0 ks kl = p.
Proof.
  intros p k0 ks kl Hp H0 Hks Hl.
  assert (Hrev : Forall state (rev ks)) by (rewrite Forall_forall in *; intros x Hx; apply Hks, in_rev; exact Hx).
  assert (ENC : forall p, state p -> encrypt p k0 ks kl = Cipher p k0 ks kl /\ state (Cipher p k0 ks kl)).
  { clear p Hp. intros p Hp. unfold encrypt, Cipher. destruct (enc_fold ks Hks (AddRoundKey p k0) (state_ark _ _ Hp H0)) as (E & S). rewrite vxor_ark. rewrite <- E.
    destruct (C71_aes_rounds _ kl S Hl) as (_ & E2 & _). rewrite E2. split; [reflexivity|]. apply state_ark; [|assumption]. apply state_shift, state_sub. exact S. }
  assert (DEC : forall p, state p -> decrypt p k0 ks kl = InvCipher p k0 ks kl).
  { clear p Hp. intros p Hp. unfold decrypt, InvCipher. destruct (dec_fold (rev ks) Hrev (AddRoundKey p kl) (state_ark _ _ Hp Hl)) as (E & S). rewrite vxor_ark, E. unfold inv_round in S.
    destruct (C71_aes_rounds _ k0 S H0) as (_ & _ & _ & _ & E2). unfold inv_round. rewrite E2. reflexivity. }
  destruct (ENC p Hp) as (E & S). split; [exact E|]. split; [apply DEC; exact Hp|]. rewrite E, DEC by exact S.
  unfold Cipher, InvCipher. set (R := fun s k => AddRoundKey (MixColumns (ShiftRows (SubBytes s))) k). set (V := fun s k => InvMixColumns (AddRoundKey (InvSubBytes (InvShiftRows s)) k)).
  destruct (enc_fold ks Hks (AddRoundKey p k0) (state_ark _ _ Hp H0)) as (EF & SF). rewrite EF in SF. fold R in SF.
  rewrite ark_ark by (try assumption; apply state_shift, state_sub; exact SF).
  (* shift the grouping of the rounds: inverse rounds undo SubBytes, ShiftRows, MixColumns and the key *)
  assert (G : forall ks, Forall state ks -> forall s, state s -> fold_left V (rev ks) (ShiftRows (SubBytes (fold_left R ks s))) = ShiftRows (SubBytes s)).
  { clear - V. intros ks Hks. induction Hks as [|k ks Hk Hks IH]; intros s Hs; [reflexivity|]. cbn [fold_left rev]. rewrite fold_left_app, IH by (apply state_round; assumption). cbn [fold_left].
    unfold V at 1. assert (S1 : state (R s k)) by (apply state_round; assumption). rewrite inv_shift_shift by (apply state_sub; exact S1). rewrite inv_sub_sub by exact S1. unfold R. destruct (inv_round_round s k Hs Hk) as (_ & E). rewrite E.
    apply inv_mix_mix. apply state_shift, state_sub. exact Hs. }
  pose proof (state_ark p k0 Hp H0) as S0. rewrite G by assumption. rewrite inv_shift_shift by (apply state_sub; exact S0). rewrite inv_sub_sub by exact S0. apply ark_ark; assumption.
Qed.
(** C71: AESKeyGenAssist<rcon>: words 1 and 3 through SubWord, and rotated plus rcon *)
Theorem C71_aes_keygen : forall rcon w0 w1 w2 w3, byte rcon -> Forall byte (w0 ++ w1 ++ w2 ++ w3) -> length w0 = 4%nat -> length w1 = 4%nat -> length w2 = 4%nat -> length w3 = 4%nat ->
  let xor_rcon w := match w with x :: t => Z.lxor x rcon :: t | [] => [] end in
  aes_keygen_assist rcon (w0 ++ w1 ++ w2 ++ w3) = SubWord w1 ++ xor_rcon (RotWord (SubWord w1)) ++ SubWord w3 ++ xor_rcon (RotWord (SubWord w3)).
Proof.
  intros rcon w0 w1 w2 w3 Hr HB L0 L1 L2 L3. unfold aes_keygen_assist. rewrite sub_bytes_ok by exact HB.
  assert (D : forall w : list Z, length w = 4%nat -> exists a b c d, w = [a; b; c; d]). { intros w L. do 4 (destruct w as [|? w]; [discriminate|]). destruct w; [|discriminate]. eauto. }
  destruct (D w0 L0) as (a0 & a1 & a2 & a3 & ->), (D w1 L1) as (b0 & b1 & b2 & b3 & ->), (D w2 L2) as (c0 & c1 & c2 & c3 & ->), (D w3 L3) as (d0 & d1 & d2 & d3 & ->).
  cbv -[sbox Z.lxor byte]. rewrite !Z.lxor_0_r. reflexivity.
Qed.
(** FIPS-197 appendix B: first round of the example, and of the key expansion *)
Example C71_nonvacuous :
  let inp := [0x32; 0x43; 0xf6; 0xa8; 0x88; 0x5a; 0x30; 0x8d; 0x31; 0x31; 0x98; 0xa2; 0xe0; 0x37; 0x07; 0x34] in
  let key := [0x2b; 0x7e; 0x15; 0x16; 0x28; 0xae; 0xd2; 0xa6; 0xab; 0xf7; 0x15; 0x88; 0x09; 0xcf; 0x4f; 0x3c] in
  let key1 := [0xa0; 0xfa; 0xfe; 0x17; 0x88; 0x54; 0x2c; 0xb1; 0x23; 0xa3; 0x39; 0x39; 0x2a; 0x6c; 0x76; 0x05] in
  state inp /\ state key /\ state key1 /\
  aes_round (vxor inp key) key1 = [0xa4; 0x9c; 0x7f; 0xf2; 0x68; 0x9f; 0x35; 0x2b; 0x6b; 0x5b; 0xea; 0x43; 0x02; 0x6a; 0x50; 0x49] /\
  aes_keygen_assist 1 key = [0x34; 0xe4; 0xb5; 0x24; 0xe5; 0xb5; 0x24; 0x34; 0x01; 0x8a; 0x84; 0xeb; 0x8b; 0x84; 0xeb; 0x01] /\
  decrypt (encrypt inp key [key1] key) key [key1] key = inp.
Proof. repeat split; try (vm_compute; reflexivity); repeat (apply Forall_cons; [vm_compute; split; congruence|]); apply Forall_nil. Qed.

(** C72. Blocks of two u64 lanes [x0, x1]: CLMulLower multiplies the lanes x0
    of its arguments, CLMulUpper the lanes x1; the 128-bit result is written
    to the two lanes. *)
Definition clmul_block (x y : Z) : list Z := [poly_mul 64 x y mod 2 ^ 64; poly_mul 64 x y / 2 ^ 64].
(** all sixteen bits i, i+4, i+8, ... are set *)
Definition all_set (x i : Z) : Prop := forall p, 0 <= p < 16 -> Z.testbit x (i + 4 * p) = true.
Definition overflowing (x y : Z) : Prop := exists i j, 0 <= i < 4 /\ 0 <= j < 4 /\ all_set x i /\ all_set y j.
Lemma all_set_full x i : all_set x i <-> full x i.
Proof. unfold all_set, full. split; intros H p Hp; [rewrite Z.add_comm|rewrite Z.add_comm]; apply H; exact Hp. Qed.
Lemma clprod_lt a b : 0 <= b < 2 ^ 64 -> 0 <= poly_mul 64 a b < 2 ^ 128.
Proof.
  intros Hb. assert (G : forall n, (n <= 64)%nat -> 0 <= poly_mul n a b < 2 ^ 128).
  { induction n as [|n IH]; intros Hn; [cbn [poly_mul]; split; [lia|reflexivity]|]. cbn [poly_mul]. specialize (IH ltac:(lia)).
    assert (X : 0 <= (if Z.testbit a (Z.of_nat n) then Z.shiftl b (Z.of_nat n) else 0) < 2 ^ 128).
    { destruct (Z.testbit a (Z.of_nat n)); [|split; [lia|reflexivity]]. rewrite Z.shiftl_mul_pow2 by lia. assert (0 < 2 ^ Z.of_nat n <= 2 ^ 64) by (split; [apply Z.pow_pos_nonneg; lia|apply Z.pow_le_mono_r; lia]). change (2 ^ 128) with (2 ^ 64 * 2 ^ 64). nia. }
    revert IH X. generalize (poly_mul n a b) as x. generalize (if Z.testbit a (Z.of_nat n) then Z.shiftl b (Z.of_nat n) else 0) as y. intros y x Hx Hy.
    assert (E : Z.lxor x y = Z.lxor x y mod 2 ^ 128); [|rewrite E; apply Z.mod_pos_bound; reflexivity].
    rewrite <- (Z.mod_small x (2 ^ 128)), <- (Z.mod_small y (2 ^ 128)) by lia. rewrite <- !Z.land_ones by lia.
    apply Z.bits_inj'. intros m Hm. rewrite !Z.land_spec, !Z.lxor_spec, !Z.land_spec. destruct (Z.testbit x m), (Z.testbit y m), (Z.testbit (Z.ones 128) m); reflexivity. }
  apply G. lia.
Qed.
Lemma hi_ok a b : 0 <= b < 2 ^ 64 -> hi64 (poly_mul 64 a b) = poly_mul 64 a b / 2 ^ 64.
Proof.
  intros Hb. unfold hi64, wrap. rewrite Z.shiftr_div_pow2 by lia. apply Z.mod_small. pose proof (clprod_lt a b Hb). change (2 ^ 128) with (2 ^ 64 * 2 ^ 64) in *. split; [apply Z.div_pos; lia|apply Z.div_lt_upper_bound; lia].
Qed.
Lemma cons2_iff (a b c : Z) : [a; b] = [a; c] <-> b = c.
Proof. split; [intros H; injection H as ->; reflexivity|intros ->; reflexivity]. Qed.
Lemma block_spec x y : 0 <= x < 2 ^ 64 -> 0 <= y < 2 ^ 64 -> ([block lo64 x y; block hi64 x y] = clmul_block x y <-> ~ overflowing x y).
Proof.
  intros Hx Hy. unfold clmul_block. rewrite block_lo by assumption. unfold lo64, wrap. rewrite <- hi_ok by assumption.
  assert (E : overflowing x y <-> exists i j, 0 <= i < 4 /\ 0 <= j < 4 /\ full x i /\ full y j).
  { unfold overflowing. split; intros (i & j & Hi & Hj & A & B); exists i, j; repeat split; try assumption; try lia; apply all_set_full; assumption. }
  rewrite E. rewrite <- (block_hi x y Hx Hy). apply cons2_iff.
Qed.
Definition words (l : list (Z * Z)) : list Z := concat (map (fun p => [fst p; snd p]) l).
Definition u64s (l : list (Z * Z)) : Prop := Forall (fun p => 0 <= fst p < 2 ^ 64 /\ 0 <= snd p < 2 ^ 64) l.
Lemma app2_step (a b : Z) t A T (p : Prop) (P Q : Prop) : length A = 2%nat -> ([a; b] = A <-> p) -> (t = T <-> Q) -> (P <-> p /\ Q) -> (a :: b :: t = A ++ T <-> P).
Proof.
  intros L H1 H2 ->. rewrite <- H1, <- H2. destruct A as [|c [|d [|]]]; try discriminate. cbn [app]. split; [intros H; injection H as -> -> ->; auto|intros (H & ->); injection H as -> ->; reflexivity].
Qed.
(** C72: for vectors of any number of blocks, CLMulLower / CLMulUpper return
    the carry-less product in every block exactly when no block multiplies two
    words which both have a full residue class modulo 4. *)
Theorem C72_clmul_partial : forall a b, u64s a -> u64s b -> length a = length b ->
  (clmul_lower (words a) (words b) = concat (map (fun p => clmul_block (fst (fst p)) (fst (snd p))) (combine a b)) <->
     Forall (fun p => ~ overflowing (fst (fst p)) (fst (snd p))) (combine a b)) /\
  (clmul_upper (words a) (words b) = concat (map (fun p => clmul_block (snd (fst p)) (snd (snd p))) (combine a b)) <->
     Forall (fun p => ~ overflowing (snd (fst p)) (snd (snd p))) (combine a b)).
Proof.
  intros a b Ha. revert b. induction Ha as [|(a0 & a1) a (A0 & A1) Ha IH]; intros b Hb L; destruct b as [|(b0 & b1) b]; try discriminate L.
  - split; (split; [intros _; apply Forall_nil|intros _; reflexivity]).
  - inversion Hb as [|? ? (B0 & B1) Hb']; subst. destruct (IH b Hb' (f_equal pred L)) as (IHl & IHu). cbn [fst snd] in *. unfold words. cbn [map concat combine fst snd app]. fold (words a) (words b). rewrite clmul_lower_cons, clmul_upper_cons.
    split.
    + apply (app2_step _ _ _ (clmul_block a0 b0) _ (~ overflowing a0 b0) _ _ eq_refl (block_spec a0 b0 A0 B0) IHl). apply Forall_cons_iff.
    + apply (app2_step _ _ _ (clmul_block a1 b1) _ (~ overflowing a1 b1) _ _ eq_refl (block_spec a1 b1 A1 B1) IHu). apply Forall_cons_iff.
Qed.
(** C72: so the documented result is not obtained for all inputs *)
Theorem C72_clmul_refuted : exists x y, 0 <= x < 2 ^ 64 /\ 0 <= y < 2 ^ 64 /\ clmul_lower [x; 0] [y; 0] <> clmul_block x y /\
  clmul_lower [x; 0] [y; 0] = [0x0101010101010101; 0x0101010101010110] /\ clmul_block x y = [0x0101010101010101; 0x0101010101010101].
Proof. exists 0x1111111111111111, 0x1111111111111111. repeat split; try (vm_compute; congruence). Qed.
(** the low 64 bits are right for all inputs *)
Theorem C72_clmul_low_half : forall x0 x1 y0 y1, 0 <= x0 < 2 ^ 64 -> 0 <= x1 < 2 ^ 64 -> 0 <= y0 < 2 ^ 64 -> 0 <= y1 < 2 ^ 64 ->
  nth 0 (clmul_lower [x0; x1] [y0; y1]) 0 = poly_mul 64 x0 y0 mod 2 ^ 64 /\ nth 0 (clmul_upper [x0; x1] [y0; y1]) 0 = poly_mul 64 x1 y1 mod 2 ^ 64.
Proof. intros x0 x1 y0 y1 X0 X1 Y0 Y1. rewrite clmul_lower_cons, clmul_upper_cons. cbn [nth]. rewrite !block_lo by assumption. split; reflexivity. Qed.
Example C72_nonvacuous : let x := 0xDEADBEEFCAFEF00D in let y := 0x0123456789ABCDEF in ~ overflowing x y /\
  clmul_lower [x; 5] [y; 7] = clmul_block x y /\ clmul_upper [x; 5] [y; 7] = [27; 0].
Proof.
  cbv zeta. assert (E : [block lo64 0xDEADBEEFCAFEF00D 0x0123456789ABCDEF; block hi64 0xDEADBEEFCAFEF00D 0x0123456789ABCDEF] = clmul_block 0xDEADBEEFCAFEF00D 0x0123456789ABCDEF) by (vm_compute; reflexivity).
  split; [apply (block_spec _ _); [split; [discriminate|reflexivity]..|exact E]|]. split; vm_compute; reflexivity.
Qed.

(** C73 *)
(** number of one bits among the low w *)
Fixpoint ones (w : nat) (x : Z) : Z := match w with O => 0 | S w => Z.b2z (Z.testbit x (Z.of_nat w)) + ones w x end.
Lemma ones_range w x : 0 <= ones w x <= Z.of_nat w.
Proof. induction w as [|w IH]; [cbn; lia|]. cbn [ones]. destruct (Z.testbit x (Z.of_nat w)); cbn [Z.b2z]; lia. Qed.
Lemma ones_ext w x y : (forall i, 0 <= i < Z.of_nat w -> Z.testbit x i = Z.testbit y i) -> ones w x = ones w y.
Proof. induction w as [|w IH]; intros H; [reflexivity|]. cbn [ones]. rewrite (H (Z.of_nat w)) by lia. rewrite IH; [reflexivity|]. intros i Hi. apply H. lia. Qed.
Lemma ones_split w v x : ones (v + w) x = ones w x + ones v (Z.shiftr x (Z.of_nat w)).
Proof.
  induction v as [|v IH]; [cbn [ones plus]; lia|]. cbn [ones plus]. rewrite IH. rewrite Z.shiftr_spec by lia. replace (Z.of_nat v + Z.of_nat w) with (Z.of_nat (v + w)) by lia. lia.
Qed.
Definition lanes (w : Z) (v : list Z) : Prop := Forall (fun x => 0 <= x < 2 ^ w) v.
Definition pc_ok (w : nat) (pc : list Z -> list Z) : Prop := forall v, lanes (Z.of_nat w) v -> pc v = map (ones w) v.
Lemma pc8_checks : forallb (fun x => hd 0 (popcnt8_tbl [x]) =? ones 8 x) bytes = true /\ forallb (fun x => hd 0 (popcnt8_small [x]) =? ones 8 x) bytes = true.
Proof. split; vm_compute; reflexivity. Qed.
Lemma pc8_tbl_ok : pc_ok 8 popcnt8_tbl.
Proof. intros v Hv. rewrite (lanewise_map _ _ popcnt8_tbl_lw). apply map_ext_in. intros x Hx. unfold lanes in Hv. rewrite Forall_forall in Hv. exact (byte_eq _ _ (proj1 pc8_checks) x (Hv x Hx)). Qed.
Lemma pc8_small_ok : pc_ok 8 popcnt8_small.
Proof. intros v Hv. rewrite (lanewise_map _ _ popcnt8_small_lw). apply map_ext_in. intros x Hx. unfold lanes in Hv. rewrite Forall_forall in Hv. exact (byte_eq _ _ (proj2 pc8_checks) x (Hv x Hx)). Qed.
Lemma half_lanes w v : 0 < w -> lanes (2 * w) v -> lanes w (bitcast_half w v).
Proof.
  intros Hw H. induction H as [|x v Hx Hv IH]; [apply Forall_nil|]. cbn [bitcast_half]. pose proof (Z.pow_pos_nonneg 2 w ltac:(lia) ltac:(lia)). apply Forall_cons; [apply Z.mod_pos_bound; lia|]. apply Forall_cons; [|exact IH].
  rewrite Z.shiftr_div_pow2 by lia. replace (2 ^ (2 * w)) with (2 ^ w * 2 ^ w) in Hx by (rewrite <- Z.pow_add_r by lia; f_equal; lia). split; [apply Z.div_pos; lia|apply Z.div_lt_upper_bound; lia].
Qed.
Lemma pc_step w l h : 8 <= w <= 64 -> 0 <= l <= w -> 0 <= h <= w -> wrap (2 * w) (Z.shiftr (l + Z.shiftl h w) w + Z.land (l + Z.shiftl h w) 0xFF) = l + h.
Proof.
  intros Hw Hl Hh. assert (W : 256 <= 2 ^ w) by (change 256 with (2 ^ 8); apply Z.pow_le_mono_r; lia). assert (W2 : 2 ^ w <= 2 ^ (2 * w)) by (apply Z.pow_le_mono_r; lia).
  rewrite Z.shiftl_mul_pow2, Z.shiftr_div_pow2 by lia. rewrite Z.div_add, Z.div_small by lia. change 0xFF with (Z.ones 8). rewrite Z.land_ones by lia.
  replace (2 ^ w) with (2 ^ (w - 8) * 2 ^ 8) by (rewrite <- Z.pow_add_r by lia; f_equal; lia). rewrite Z.mul_assoc, Z.mod_add by lia. change (2 ^ 8) with 256. rewrite (Z.mod_small l) by lia. unfold wrap. rewrite Z.mod_small; lia.
Qed.
Lemma pc_twice_ok w pc : (8 <= w <= 64)%nat -> pc_ok w pc -> pc_ok (w + w) (popcnt_twice (Z.of_nat w) pc).
Proof.
  intros Hw HP v Hv. unfold popcnt_twice. replace (Z.of_nat (w + w)) with (2 * Z.of_nat w) in Hv by lia. rewrite HP by (apply half_lanes; [lia|exact Hv]). unfold vaddw, vshr, vand, vset. clear HP.
  induction v as [|x v IH]; [reflexivity|]. inversion Hv; subst. cbn [bitcast_half map bitcast_twice length repeat]. unfold map2 in *. cbn [combine map fst snd]. rewrite IH by assumption. f_equal.
  pose proof (ones_range w (wrap (Z.of_nat w) x)). pose proof (ones_range w (Z.shiftr x (Z.of_nat w))). rewrite pc_step by lia. rewrite ones_split. f_equal.
  apply ones_ext. intros i Hi. unfold wrap. apply Z.mod_pow2_bits_low. lia.
Qed.
(** C73: PopulationCount returns the number of one bits of every lane, for all
    four lane widths, any number of lanes and both 8-bit implementations *)
Theorem C73_population_count : forall pc8 v, pc8 = popcnt8_tbl \/ pc8 = popcnt8_small ->
  (lanes 8 v -> pc8 v = map (ones 8) v) /\ (lanes 16 v -> popcnt16 pc8 v = map (ones 16) v) /\
  (lanes 32 v -> popcnt32 pc8 v = map (ones 32) v) /\ (lanes 64 v -> popcnt64 pc8 v = map (ones 64) v).
Proof.
  intros pc8 v H. assert (P8 : pc_ok 8 pc8) by (destruct H as [->| ->]; [apply pc8_tbl_ok|apply pc8_small_ok]).
  assert (P16 : pc_ok 16 (popcnt16 pc8)) by (apply (pc_twice_ok 8 pc8); [lia|exact P8]).
  assert (P32 : pc_ok 32 (popcnt32 pc8)) by (apply (pc_twice_ok 16); [lia|exact P16]).
  assert (P64 : pc_ok 64 (popcnt64 pc8)) by (apply (pc_twice_ok 32); [lia|exact P32]).
  split; [apply P8|]. split; [apply P16|]. split; [apply P32|apply P64].
Qed.
Example C73_nonvacuous : lanes 64 [0xFFFFFFFFFFFFFFFF; 0x8000000000000001; 0; 0x0123456789ABCDEF] /\
  popcnt64 popcnt8_small [0xFFFFFFFFFFFFFFFF; 0x8000000000000001; 0; 0x0123456789ABCDEF] = [64; 2; 0; 32] /\ ones 64 0x0123456789ABCDEF = 32.
Proof. split; [repeat (apply Forall_cons; [vm_compute; split; congruence|]); apply Forall_nil|]. split; vm_compute; reflexivity. Qed.
