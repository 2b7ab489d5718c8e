From Coq Require Import ZArith List Bool Lia Btauto.
From Verif Require Import Word Word_Proofs Ops_Model Crypto_Model CLMul_Proofs AES_Spec.
Import ListNotations.
Local Open Scope Z_scope.

(** ** checking all bytes *)
Lemma byte_all (P : Z -> bool) : forallb P bytes = true -> forall x, byte x -> P x = true.
Proof.
  intros H x Hx. rewrite forallb_forall in H. apply H. unfold bytes. apply in_map_iff. exists (Z.to_nat x). split; [unfold byte in Hx; lia|]. apply in_seq. unfold byte in Hx. lia.
Qed.
Lemma byte_eq (f g : Z -> Z) : forallb (fun x => f x =? g x) bytes = true -> forall x, byte x -> f x = g x.
Proof. intros H x Hx. apply Z.eqb_eq. apply (byte_all _ H x Hx). Qed.
(** an operation that works lane by lane *)
Definition lanewise (op : list Z -> list Z) : Prop := op [] = [] /\ forall x t, op (x :: t) = hd 0 (op [x]) :: op t.
Lemma lanewise_map op l : lanewise op -> op l = map (fun x => hd 0 (op [x])) l.
Proof. intros (H0 & H). induction l as [|x l IH]; [exact H0|]. rewrite H, IH. reflexivity. Qed.
Definition ismap (op : list Z -> list Z) : Prop := exists f, forall l, op l = map f l.
Lemma ismap_id : ismap (fun l => l). Proof. exists (fun x => x). intros l. now rewrite map_id. Qed.
Lemma ismap_map f a : ismap a -> ismap (fun l => map f (a l)).
Proof. intros (g & H). exists (fun x => f (g x)). intros l. rewrite H, map_map. reflexivity. Qed.
Lemma ismap_map2 (f : Z -> Z -> Z) a b : ismap a -> ismap b -> ismap (fun l => map2 f (a l) (b l)).
Proof.
  intros (g & H) (h & K). exists (fun x => f (g x) (h x)). intros l. rewrite H, K. unfold map2. induction l as [|x l IH]; [reflexivity|]. cbn [map combine fst snd]. now rewrite IH.
Qed.
Lemma ismap_vset c : ismap (fun l => vset (length l) c).
Proof. exists (fun _ => c). intros l. unfold vset. induction l as [|x l IH]; [reflexivity|]. cbn [length repeat map]. now rewrite IH. Qed.
Lemma ismap_lanewise op : ismap op -> lanewise op.
Proof. intros (f & H). split; [apply H|]. intros x t. rewrite !H. reflexivity. Qed.
Ltac is_map := repeat first [apply ismap_id | apply ismap_vset | apply ismap_map2 | apply ismap_map].
Ltac lw := apply ismap_lanewise; unfold vxor, vand, vor, vaddw, vsubw, vshl, vshr, tbl_lookup, tbl_lookup_or0, if_negative_then_set8; is_map.
Lemma sbmi_ismap tl tu : ismap (fun s => sub_bytes_mul_inverse s tl tu).
Proof. unfold sub_bytes_mul_inverse. cbv zeta. unfold vxor, vand, vor, vaddw, vsubw, vshl, vshr, tbl_lookup, tbl_lookup_or0. is_map. Qed.
Lemma ismap_comp f a : ismap f -> ismap a -> ismap (fun l => f (a l)).
Proof. intros (g & H) (h & K). exists (fun x => g (h x)). intros l. rewrite H, K, map_map. reflexivity. Qed.
Lemma sub_bytes_lw : lanewise sub_bytes. Proof. apply ismap_lanewise. unfold sub_bytes, vxor. apply ismap_map2; [apply sbmi_ismap|apply ismap_vset]. Qed.
Lemma inv_sub_bytes_lw : lanewise inv_sub_bytes.
Proof.
  apply ismap_lanewise. unfold inv_sub_bytes. cbv zeta. apply (ismap_comp (fun s => sub_bytes_mul_inverse s inv_tblL inv_tblU)); [apply sbmi_ismap|].
  unfold vxor, vor, vshl, vshr. is_map.
Qed.
Lemma popcnt8_tbl_lw : lanewise popcnt8_tbl. Proof. unfold popcnt8_tbl. cbv zeta. lw. Qed.
Lemma popcnt8_small_lw : lanewise popcnt8_small. Proof. unfold popcnt8_small. cbv zeta. lw. Qed.

(** ** AES *)
Lemma sbox_check : forallb (fun x => hd 0 (sub_bytes [x]) =? sbox x) bytes = true. Proof. vm_compute. reflexivity. Qed.
Definition isb (x : Z) : Z := hd 0 (inv_sub_bytes [x]).
Definition sbx (x : Z) : Z := hd 0 (sub_bytes [x]).
Lemma isb_check : forallb (fun x => (0 <=? isb x) && (isb x <? 256) && (sbx (isb x) =? x) && (isb (sbx x) =? x) && (0 <=? sbx x) && (sbx x <? 256)) bytes = true. Proof. vm_compute. reflexivity. Qed.
Lemma sbox_sbx x : byte x -> sbox x = sbx x. Proof. intros H. symmetry. apply (byte_eq _ _ sbox_check x H). Qed.
Lemma isb_facts x : byte x -> byte (isb x) /\ sbox (isb x) = x /\ isb (sbox x) = x /\ byte (sbox x).
Proof.
  intros Hx. pose proof (byte_all _ isb_check x Hx) as E. cbv beta in E. rewrite !andb_true_iff in E. destruct E as (((((E1 & E2) & E3) & E4) & E5) & E6). apply Z.leb_le in E1, E5. apply Z.ltb_lt in E2, E6. apply Z.eqb_eq in E3, E4.
  assert (B : byte (isb x)) by (split; assumption). rewrite (sbox_sbx x Hx), (sbox_sbx (isb x) B). repeat split; assumption.
Qed.
Lemma in_bytes x : In x bytes <-> byte x.
Proof.
  unfold bytes, byte. rewrite in_map_iff. split; [intros (k & <- & Hk); apply in_seq in Hk; lia|intros H; exists (Z.to_nat x); split; [lia|]; apply in_seq; lia].
Qed.
Lemma inv_sbox_isb x : byte x -> inv_sbox x = isb x.
Proof.
  intros Hx. destruct (isb_facts x Hx) as (B & E & _). unfold inv_sbox. destruct (find (fun y => sbox y =? x) bytes) as [y|] eqn:F.
  - apply find_some in F. destruct F as (Hy & EQ). apply Z.eqb_eq in EQ. apply in_bytes in Hy. destruct (isb_facts y Hy) as (_ & _ & E2 & _). congruence.
  - exfalso. pose proof (find_none _ _ F (isb x) (proj2 (in_bytes _) B)) as C. cbv beta in C. apply Z.eqb_neq in C. contradiction.
Qed.
Opaque sub_bytes inv_sub_bytes sbox inv_sbox.
Lemma sub_bytes_ok s : Forall byte s -> sub_bytes s = SubBytes s.
Proof. intros H. rewrite (lanewise_map _ _ sub_bytes_lw). unfold SubBytes. apply map_ext_in. intros x Hx. rewrite Forall_forall in H. exact (byte_eq _ _ sbox_check x (H x Hx)). Qed.
Lemma inv_sub_bytes_ok s : Forall byte s -> inv_sub_bytes s = InvSubBytes s.
Proof. intros H. rewrite (lanewise_map _ _ inv_sub_bytes_lw). unfold InvSubBytes. apply map_ext_in. intros x Hx. rewrite Forall_forall in H. fold (isb x). symmetry. exact (inv_sbox_isb x (H x Hx)). Qed.
Ltac d16 s H := let L := fresh in let F := fresh in destruct H as (L & F); do 16 (destruct s as [|?x s]; [cbn in L; lia|]); destruct s; [|cbn in L; lia]; clear L.
Lemma shift_rows_ok s : state s -> shift_rows s = ShiftRows s.
Proof. intros H. d16 s H. reflexivity. Qed.
Lemma inv_shift_rows_ok s : state s -> inv_shift_rows s = InvShiftRows s.
Proof. intros H. d16 s H. reflexivity. Qed.

Definition xtime (x : Z) : Z := Z.lxor (Z.shiftl x 1) (if Z.testbit x 7 then 0x11B else 0).
Lemma gf2_check : forallb (fun x => hd 0 (gf_mul2 [x]) =? xtime x) bytes = true. Proof. vm_compute. reflexivity. Qed.
Lemma xtime_byte_check : forallb (fun x => (0 <=? xtime x) && (xtime x <? 256)) bytes = true. Proof. vm_compute. reflexivity. Qed.
Lemma xtime_byte x : byte x -> byte (xtime x).
Proof. intros H. pose proof (byte_all _ xtime_byte_check x H) as E. cbv beta in E. apply andb_true_iff in E. destruct E as (E1 & E2). apply Z.leb_le in E1. apply Z.ltb_lt in E2. split; assumption. Qed.
Lemma xtime_lxor x y : xtime (Z.lxor x y) = Z.lxor (xtime x) (xtime y).
Proof.
  unfold xtime. rewrite Z.shiftl_lxor, Z.lxor_spec. apply Z.bits_inj'. intros n Hn. destruct (Z.testbit x 7), (Z.testbit y 7); cbn [xorb]; rewrite !Z.lxor_spec, ?Z.bits_0; btauto.
Qed.
Lemma gf_mul2_lw : lanewise gf_mul2. Proof. unfold gf_mul2. lw. Qed.
Lemma gf_mul2_ok s : Forall byte s -> gf_mul2 s = map xtime s.
Proof. intros H. rewrite (lanewise_map _ _ gf_mul2_lw). apply map_ext_in. intros x Hx. rewrite Forall_forall in H. apply (byte_eq _ _ gf2_check). auto. Qed.
Lemma map_xtime_byte s : Forall byte s -> Forall byte (map xtime s).
Proof. intros H. rewrite Forall_forall in *. intros y Hy. apply in_map_iff in Hy. destruct Hy as (x & <- & Hx). apply xtime_byte. auto. Qed.
Lemma gmul1 x : byte x -> gmul 1 x = x. Proof. revert x. apply byte_eq. vm_compute. reflexivity. Qed.
Lemma gmul2 x : byte x -> gmul 2 x = xtime x. Proof. revert x. apply byte_eq. vm_compute. reflexivity. Qed.
Lemma gmul3 x : byte x -> gmul 3 x = Z.lxor (xtime x) x. Proof. revert x. apply byte_eq. vm_compute. reflexivity. Qed.
Lemma gmul9 x : byte x -> gmul 9 x = Z.lxor (xtime (xtime (xtime x))) x. Proof. revert x. apply byte_eq. vm_compute. reflexivity. Qed.
Lemma gmul11 x : byte x -> gmul 11 x = Z.lxor (Z.lxor (xtime (xtime (xtime x))) x) (xtime x). Proof. revert x. apply byte_eq. vm_compute. reflexivity. Qed.
Lemma gmul13 x : byte x -> gmul 13 x = Z.lxor (Z.lxor (xtime (xtime (xtime x))) x) (xtime (xtime x)). Proof. revert x. apply byte_eq. vm_compute. reflexivity. Qed.
Lemma gmul14 x : byte x -> gmul 14 x = Z.lxor (xtime (xtime (xtime x))) (Z.lxor (xtime (xtime x)) (xtime x)). Proof. revert x. apply byte_eq. vm_compute. reflexivity. Qed.
Opaque xtime gmul.
Ltac xor_ac := apply Z.bits_inj'; intros ?n ?Hn; rewrite !Z.lxor_spec; btauto.
Ltac list_ac := repeat (apply (f_equal2 (@cons Z)); [xor_ac|]); try reflexivity.
Ltac inv_forall := repeat match goal with H : Forall byte (_ :: _) |- _ => apply Forall_cons_iff in H; destruct H end.
Lemma mix_columns_ok s : state s -> mix_columns s = MixColumns s.
Proof.
  intros H. unfold mix_columns. rewrite gf_mul2_ok by apply H. d16 s H. inv_forall. cbv -[Z.lxor xtime gmul]. rewrite !gmul1, !gmul2, !gmul3 by assumption. list_ac.
Qed.
Lemma inv_mix_columns_ok s : state s -> inv_mix_columns s = InvMixColumns s.
Proof.
  intros H. unfold inv_mix_columns. pose proof (map_xtime_byte s (proj2 H)) as X1. pose proof (map_xtime_byte _ X1) as X2. rewrite (gf_mul2_ok s) by apply H. rewrite (gf_mul2_ok (map xtime s)) by exact X1. rewrite (gf_mul2_ok (map xtime (map xtime s))) by exact X2. clear X1 X2.
  d16 s H. inv_forall. cbv -[Z.lxor xtime gmul]. rewrite !gmul9, !gmul11, !gmul13, !gmul14 by assumption. list_ac.
Qed.
(** ranges *)
Lemma lxor_byte x y : byte x -> byte y -> byte (Z.lxor x y).
Proof.
  intros Hx Hy. unfold byte in *. assert (E : Z.lxor x y = Z.lxor x y mod 2 ^ 8); [|rewrite E; apply Z.mod_pos_bound; lia].
  rewrite <- (Z.mod_small x (2 ^ 8)), <- (Z.mod_small y (2 ^ 8)) by (change (2 ^ 8) with 256; lia). rewrite <- !Z.land_ones by lia.
  apply Z.bits_inj'. intros n Hn. rewrite !Z.land_spec, !Z.lxor_spec, !Z.land_spec. btauto.
Qed.
Lemma state_sub s : state s -> state (SubBytes s).
Proof.
  intros (L & F). split; [unfold SubBytes; now rewrite map_length|]. unfold SubBytes. rewrite Forall_forall in *. intros y Hy. apply in_map_iff in Hy. destruct Hy as (x & <- & Hx). apply isb_facts. auto.
Qed.
Lemma inv_sbox_facts x : byte x -> byte (inv_sbox x) /\ sbox (inv_sbox x) = x /\ inv_sbox (sbox x) = x.
Proof.
  intros Hx. destruct (isb_facts x Hx) as (B & E1 & E2 & B2). rewrite !inv_sbox_isb by assumption. auto.
Qed.
Lemma state_inv_sub s : state s -> state (InvSubBytes s).
Proof.
  intros (L & F). split; [unfold InvSubBytes; now rewrite map_length|]. unfold InvSubBytes. rewrite Forall_forall in *. intros y Hy. apply in_map_iff in Hy. destruct Hy as (x & <- & Hx). apply inv_sbox_facts. auto.
Qed.
Lemma state_shift s : state s -> state (ShiftRows s).
Proof. intros H. split; [reflexivity|]. d16 s H. inv_forall. cbv -[byte]. repeat (apply Forall_cons; [assumption|]). apply Forall_nil. Qed.
Lemma state_inv_shift s : state s -> state (InvShiftRows s).
Proof. intros H. split; [reflexivity|]. d16 s H. inv_forall. cbv -[byte]. repeat (apply Forall_cons; [assumption|]). apply Forall_nil. Qed.
Lemma gmul_byte : forall m, In m [1; 2; 3; 9; 11; 13; 14] -> forall x, byte x -> byte (gmul m x).
Proof.
  intros m Hm x Hx. repeat destruct Hm as [<-|Hm]; [..|destruct Hm]; rewrite ?gmul1, ?gmul2, ?gmul3, ?gmul9, ?gmul11, ?gmul13, ?gmul14 by exact Hx; repeat apply lxor_byte; repeat apply xtime_byte; exact Hx.
Qed.
Lemma state_mix s : state s -> state (MixColumns s).
Proof. intros H. split; [reflexivity|]. d16 s H. inv_forall. cbv -[byte Z.lxor gmul]. repeat (apply Forall_cons; [repeat apply lxor_byte; apply gmul_byte; try assumption; cbn [In]; auto 10|]). apply Forall_nil. Qed.
Lemma state_inv_mix s : state s -> state (InvMixColumns s).
Proof. intros H. split; [reflexivity|]. d16 s H. inv_forall. cbv -[byte Z.lxor gmul]. repeat (apply Forall_cons; [repeat apply lxor_byte; apply gmul_byte; try assumption; cbn [In]; auto 10|]). apply Forall_nil. Qed.
Lemma state_ark s k : state s -> state k -> state (AddRoundKey s k).
Proof. intros H K. d16 s H. d16 k K. inv_forall. split; [reflexivity|]. cbn. repeat (apply Forall_cons; [apply lxor_byte; assumption|]). apply Forall_nil. Qed.
(** inverses *)
Lemma ark_ark s k : state s -> state k -> AddRoundKey (AddRoundKey s k) k = s.
Proof. intros H K. d16 s H. d16 k K. cbn. repeat (apply (f_equal2 (@cons Z)); [apply Z.bits_inj'; intros ?n ?Hn; rewrite !Z.lxor_spec; destruct (Z.testbit _ n), (Z.testbit _ n); reflexivity|]). reflexivity. Qed.
Lemma inv_sub_sub s : state s -> InvSubBytes (SubBytes s) = s.
Proof. intros (L & F). unfold InvSubBytes, SubBytes. rewrite map_map. rewrite <- (map_id s) at 2. apply map_ext_in. intros x Hx. rewrite Forall_forall in F. apply inv_sbox_facts. auto. Qed.
Lemma inv_shift_shift s : state s -> InvShiftRows (ShiftRows s) = s.
Proof. intros H. d16 s H. reflexivity. Qed.
Lemma inv_mix_mix s : state s -> InvMixColumns (MixColumns s) = s.
Proof.
  intros H. pose proof (state_mix s H) as HM. rewrite <- (mix_columns_ok s H) in *. rewrite <- inv_mix_columns_ok by exact HM. unfold inv_mix_columns. pose proof (map_xtime_byte _ (proj2 HM)) as X1. pose proof (map_xtime_byte _ X1) as X2.
  rewrite (gf_mul2_ok (mix_columns s)) by apply HM. rewrite (gf_mul2_ok (map xtime (mix_columns s))) by exact X1. rewrite (gf_mul2_ok (map xtime (map xtime _))) by exact X2. clear X1 X2 HM.
  unfold mix_columns. rewrite gf_mul2_ok by apply H. d16 s H. cbv -[Z.lxor xtime]. rewrite !xtime_lxor. list_ac.
Qed.
Lemma inv_mix_ark s k : state s -> state k -> InvMixColumns (AddRoundKey s k) = AddRoundKey (InvMixColumns s) (InvMixColumns k).
Proof.
  intros H K. pose proof (state_ark s k H K) as HA. d16 s H. d16 k K. destruct HA as (_ & F). cbn in F. inv_forall. cbv -[Z.lxor gmul].
  rewrite !gmul9, !gmul11, !gmul13, !gmul14 by assumption. rewrite !xtime_lxor. list_ac.
Qed.
Lemma inv_sub_shift s : state s -> InvSubBytes (InvShiftRows s) = InvShiftRows (InvSubBytes s).
Proof. intros H. d16 s H. cbv -[inv_sbox]. reflexivity. Qed.
