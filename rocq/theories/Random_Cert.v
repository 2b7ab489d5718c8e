(** The period of the xoshiro256 state transition is 2^256 - 1.  Generated
    constants (powers of x, inverses) are certificates: the lemmas check them. *)
From Coq Require Import ZArith NArith Znumtheory List Lia Bool.
From Verif Require Import Word Random_Model Random_Spec GF2_Poly Random_Linear Primes.
Import ListNotations.

Notation mulm := (GF2_Poly.mulmod plow).
Notation sqi := (GF2_Poly.sq_iter plow).
Notation powp := (GF2_Poly.pow_pos plow).
Notation one := (GF2_Poly.one plow).
Notation reps := (GF2_Poly.reps xor_state zero_st Tl plow wf).
Notation b256 := (bits 256).

Ltac lin := auto using xs_comm, xs_assoc, xs_0, xs_self, Tl_add, wf_Tl, plow_ok.
Lemma plow_pos : length plow <> 0%nat. Proof. discriminate. Qed.
Lemma r_mul p q a b : reps p a -> reps q b -> reps (mulm p q) (a + b).
Proof. apply reps_mul; lin. exact plow_pos. Qed.
Lemma r_sq k p a : reps p a -> reps (sqi k p) (a * 2 ^ N.of_nat k).
Proof. apply reps_sq; lin. exact plow_pos. Qed.
Lemma r_pow p a e : reps p a -> reps (powp p e) (a * Npos e).
Proof. intros H. apply reps_pow; lin. exact plow_pos. Qed.
Lemma r_div d di e a b : reps d a -> reps e (b + a) -> leqb (mulm di d) one = true -> reps (mulm di e) b.
Proof. apply reps_div; lin. exact plow_pos. Qed.
Lemma r_nofix r u k : reps r k -> leqb (mulm u (xorl r one)) one = true -> forall v, wf v -> N.iter k Tl v = v -> v = zero_st.
Proof. apply no_fixpoint; lin. exact plow_pos. Qed.
Lemma r_eq p q a b : reps p a -> leqb p q = true -> a = b -> reps q b.
Proof. intros H E <-. apply leqb_eq in E. now subst q. Qed.

Definition px : list bool := b256 2.
Lemma r_px : reps px 1.
Proof.
  split; [reflexivity|]. intros v _. assert (E : px = false :: true :: repeat false 254) by (vm_compute; reflexivity).
  rewrite E. cbn [GF2_Poly.ev]. change (N.iter 1 Tl v) with (Tl v). rewrite xs_0.
  assert (Z : forall n w, GF2_Poly.ev xor_state zero_st Tl (repeat false n) w = zero_st).
  { induction n as [|n IH]; intros w; cbn [repeat GF2_Poly.ev]; [reflexivity|]. now rewrite xs_0, IH. }
  rewrite Z, xs_comm. apply xs_0.
Qed.

(** x^(2^128) is kJump and x^(2^192) is kLongJump. *)
Definition pJ : list bool := flat_map (bits 64) kJump.
Definition pL : list bool := flat_map (bits 64) kLongJump.
Lemma c_J : leqb (sqi 128 px) pJ = true. Proof. vm_compute. reflexivity. Qed.
Lemma c_L : leqb (sqi 64 pJ) pL = true. Proof. vm_compute. reflexivity. Qed.
Lemma c_M : leqb (sqi 64 pL) px = true. Proof. vm_compute. reflexivity. Qed.
Lemma r_J : reps pJ (2 ^ 128).
Proof. eapply r_eq; [apply r_sq, r_px|exact c_J|reflexivity]. Qed.
Lemma r_L : reps pL (2 ^ 192).
Proof. eapply r_eq; [apply r_sq, r_J|exact c_L|vm_compute; reflexivity]. Qed.
Lemma r_M : reps px (2 ^ 256).
Proof. eapply r_eq; [apply r_sq, r_L|exact c_M|vm_compute; reflexivity]. Qed.

(** D i = x^(F_i F_(i+1) .. F_7), S i = (D (i+1))^(2^(2^i)), E i = x^(M / F_i), with F_i = 2^(2^i) + 1. *)
Definition I7 : list bool := b256 0x8001e01e1f9f658c825a76e79312cfc281400015e77e8d2f4e88b795d8787800.
Definition E7 : list bool := Eval vm_compute in mulm I7 pJ.
Lemma c_I7 : leqb (mulm I7 px) one = true. Proof. vm_compute. reflexivity. Qed.
Lemma r_E7 : reps E7 340282366920938463463374607431768211455.
Proof.
  apply (r_eq (mulm I7 pJ) E7 340282366920938463463374607431768211455 340282366920938463463374607431768211455); [|vm_compute; reflexivity|reflexivity].
  apply (r_div px I7 pJ 1 340282366920938463463374607431768211455); [exact r_px| |exact c_I7].
  eapply r_eq; [exact r_J|apply leqb_refl|vm_compute; reflexivity].
Qed.
Definition D7 : list bool := Eval vm_compute in mulm px pJ.
Lemma r_D7 : reps D7 340282366920938463463374607431768211457.
Proof.
  eapply r_eq; [eapply r_mul; [exact r_px|exact r_J]|vm_compute; reflexivity|vm_compute; reflexivity].
Qed.

Definition S6 : list bool := b256 0x158c6a3fcdb1b9ddb01b0802f640bd421310f9a324bffeb16b5f0de6ed5adbcf.
Lemma c_S6 : leqb (sqi 64 D7) S6 = true. Proof. vm_compute. reflexivity. Qed.
Lemma r_S6 : reps S6 6277101735386680763835789423207666416120802188537744064512.
Proof. eapply r_eq; [apply r_sq, r_D7|exact c_S6|vm_compute; reflexivity]. Qed.
Definition I6 : list bool := b256 0xed47828352a53cbd1365c123da73560a68792159c4199258bcf0057165d2bbf6.
Definition E6 : list bool := Eval vm_compute in mulm I6 S6.
Lemma c_I6 : leqb (mulm I6 D7) one = true. Proof. vm_compute. reflexivity. Qed.
Lemma r_E6 : reps E6 6277101735386680763495507056286727952657427581105975853055.
Proof.
  apply (r_eq (mulm I6 S6) E6 6277101735386680763495507056286727952657427581105975853055 6277101735386680763495507056286727952657427581105975853055); [|vm_compute; reflexivity|reflexivity].
  apply (r_div D7 I6 S6 340282366920938463463374607431768211457 6277101735386680763495507056286727952657427581105975853055); [exact r_D7| |exact c_I6].
  eapply r_eq; [exact r_S6|apply leqb_refl|vm_compute; reflexivity].
Qed.
Definition D6 : list bool := Eval vm_compute in mulm D7 S6.
Lemma r_D6 : reps D6 6277101735386680764176071790128604879584176795969512275969.
Proof.
  eapply r_eq; [eapply r_mul; [exact r_D7|exact r_S6]|vm_compute; reflexivity|vm_compute; reflexivity].
Qed.

Definition S5 : list bool := b256 0x8ea8074a611f4ced1fd456af7679380bf31155617e0f638bf27c5f463e4dbfc1.
Lemma c_S5 : leqb (sqi 32 D6) S5 = true. Proof. vm_compute. reflexivity. Qed.
Lemma r_S5 : reps S5 26959946667150639796128516724350533591920057417771119838357381709824.
Proof. eapply r_eq; [apply r_sq, r_D6|exact c_S5|vm_compute; reflexivity]. Qed.
Definition I5 : list bool := b256 0x36d03f132e70f7e9971d426a1b0b80ecc93ac7be41cf93cd2afe01097ad16156.
Definition E5 : list bool := Eval vm_compute in mulm I5 S5.
Lemma c_I5 : leqb (mulm I5 D6) one = true. Proof. vm_compute. reflexivity. Qed.
Lemma r_E5 : reps E5 26959946660873538060741835960174461801791452538186943042387869433855.
Proof.
  apply (r_eq (mulm I5 S5) E5 26959946660873538060741835960174461801791452538186943042387869433855 26959946660873538060741835960174461801791452538186943042387869433855); [|vm_compute; reflexivity|reflexivity].
  apply (r_div D6 I5 S5 6277101735386680764176071790128604879584176795969512275969 26959946660873538060741835960174461801791452538186943042387869433855); [exact r_D6| |exact c_I5].
  eapply r_eq; [exact r_S5|apply leqb_refl|vm_compute; reflexivity].
Qed.
Definition D5 : list bool := Eval vm_compute in mulm D6 S5.
Lemma r_D5 : reps D5 26959946673427741531515197488526605382048662297355296634326893985793.
Proof.
  eapply r_eq; [eapply r_mul; [exact r_D6|exact r_S5]|vm_compute; reflexivity|vm_compute; reflexivity].
Qed.

Definition S4 : list bool := b256 0xdb8349df0a525530f958cda0017f4991f9438a91014f8a3c470fb9e02e7fa255.
Lemma c_S4 : leqb (sqi 16 D5) S4 = true. Proof. vm_compute. reflexivity. Qed.
Lemma r_S4 : reps S4 1766847065189760469009379982608079610317941132319476720227247324252930048.
Proof. eapply r_eq; [apply r_sq, r_D5|exact c_S4|vm_compute; reflexivity]. Qed.
Definition I4 : list bool := b256 0x1f773b0b104eebacb02a5f296be6a3d7155d61e53e8368413c9dcc78c1e9d8b5.
Definition E4 : list bool := Eval vm_compute in mulm I4 S4.
Lemma c_I4 : leqb (mulm I4 D5) one = true. Proof. vm_compute. reflexivity. Qed.
Lemma r_E4 : reps E4 1766820105243087041267848467410591083712559083657179364930612997358944255.
Proof.
  apply (r_eq (mulm I4 S4) E4 1766820105243087041267848467410591083712559083657179364930612997358944255 1766820105243087041267848467410591083712559083657179364930612997358944255); [|vm_compute; reflexivity|reflexivity].
  apply (r_div D5 I4 S4 26959946673427741531515197488526605382048662297355296634326893985793 1766820105243087041267848467410591083712559083657179364930612997358944255); [exact r_D5| |exact c_I4].
  eapply r_eq; [exact r_S4|apply leqb_refl|vm_compute; reflexivity].
Qed.
Definition D4 : list bool := Eval vm_compute in mulm D5 S4.
Lemma r_D4 : reps D4 1766874025136433896750911497805568136923323180981774075523881651146915841.
Proof.
  eapply r_eq; [eapply r_mul; [exact r_D5|exact r_S4]|vm_compute; reflexivity|vm_compute; reflexivity].
Qed.

Definition S3 : list bool := b256 0x543b010a5f38e0838d7c371fab914c527df0c6de6fa15516649c982e0bc2b105.
Lemma c_S3 : leqb (sqi 8 D4) S3 = true. Proof. vm_compute. reflexivity. Qed.
Lemma r_S3 : reps S3 452319750434927077568233343438225443052370734331334163334113702693610455296.
Proof. eapply r_eq; [apply r_sq, r_D4|exact c_S3|vm_compute; reflexivity]. Qed.
Definition I3 : list bool := b256 0xaa3c102d54f9e772171e880ee5a23cbfd508edea5f61397f6c971ad0e4c7dceb.
Definition E3 : list bool := Eval vm_compute in mulm I3 S3.
Lemma c_I3 : leqb (mulm I3 D4) one = true. Proof. vm_compute. reflexivity. Qed.
Lemma r_E3 : reps E3 450552876409790643671482431940419874915447411150352389258589821042463539455.
Proof.
  apply (r_eq (mulm I3 S3) E3 450552876409790643671482431940419874915447411150352389258589821042463539455 450552876409790643671482431940419874915447411150352389258589821042463539455); [|vm_compute; reflexivity|reflexivity].
  apply (r_div D4 I3 S3 1766874025136433896750911497805568136923323180981774075523881651146915841 450552876409790643671482431940419874915447411150352389258589821042463539455); [exact r_D4| |exact c_I3].
  eapply r_eq; [exact r_S3|apply leqb_refl|vm_compute; reflexivity].
Qed.
Definition D3 : list bool := Eval vm_compute in mulm D4 S3.
Lemma r_D3 : reps D3 454086624460063511464984254936031011189294057512315937409637584344757371137.
Proof.
  eapply r_eq; [eapply r_mul; [exact r_D4|exact r_S3]|vm_compute; reflexivity|vm_compute; reflexivity].
Qed.

Definition S2 : list bool := b256 0x12e43a874b6b05be0b5c556f614e185082a88b105afa0ce7a054e5faf8b4fd28.
Lemma c_S2 : leqb (sqi 4 D3) S2 = true. Proof. vm_compute. reflexivity. Qed.
Lemma r_S2 : reps S2 7265385991361016183439748078976496179028704920197054998554201349516117938192.
Proof. eapply r_eq; [apply r_sq, r_D3|exact c_S2|vm_compute; reflexivity]. Qed.
Definition I2 : list bool := b256 0x5ec64d2a5624a67913074093594081437dbf3af1b6edf27c731ce743fc511db8.
Definition E2 : list bool := Eval vm_compute in mulm I2 S2.
Lemma c_I2 : leqb (mulm I2 D3) one = true. Proof. vm_compute. reflexivity. Qed.
Lemma r_E2 : reps E2 6811299366900952671974763824040465167839410862684739061144563765171360567055.
Proof.
  apply (r_eq (mulm I2 S2) E2 6811299366900952671974763824040465167839410862684739061144563765171360567055 6811299366900952671974763824040465167839410862684739061144563765171360567055); [|vm_compute; reflexivity|reflexivity].
  apply (r_div D3 I2 S2 454086624460063511464984254936031011189294057512315937409637584344757371137 6811299366900952671974763824040465167839410862684739061144563765171360567055); [exact r_D3| |exact c_I2].
  eapply r_eq; [exact r_S2|apply leqb_refl|vm_compute; reflexivity].
Qed.
Definition D2 : list bool := Eval vm_compute in mulm D3 S2.
Lemma r_D2 : reps D2 7719472615821079694904732333912527190217998977709370935963838933860875309329.
Proof.
  eapply r_eq; [eapply r_mul; [exact r_D3|exact r_S2]|vm_compute; reflexivity|vm_compute; reflexivity].
Qed.

Definition S1 : list bool := b256 0x9b17f5767b72e1a3c673d4c3e369b20235e972559753b37fdedc95dc103781e.
Lemma c_S1 : leqb (sqi 2 D2) S1 = true. Proof. vm_compute. reflexivity. Qed.
Lemma r_S1 : reps S1 30877890463284318779618929335650108760871995910837483743855355735443501237316.
Proof. eapply r_eq; [apply r_sq, r_D2|exact c_S1|vm_compute; reflexivity]. Qed.
Definition I1 : list bool := b256 0x6ec9cd129895d052616a564f042be5956a2075f39c3d432635ad7e8b44cbcdcc.
Definition E1 : list bool := Eval vm_compute in mulm I1 S1.
Lemma c_I1 : leqb (mulm I1 D2) one = true. Proof. vm_compute. reflexivity. Qed.
Lemma r_E1 : reps E1 23158417847463239084714197001737581570653996933128112807891516801582625927987.
Proof.
  apply (r_eq (mulm I1 S1) E1 23158417847463239084714197001737581570653996933128112807891516801582625927987 23158417847463239084714197001737581570653996933128112807891516801582625927987); [|vm_compute; reflexivity|reflexivity].
  apply (r_div D2 I1 S1 7719472615821079694904732333912527190217998977709370935963838933860875309329 23158417847463239084714197001737581570653996933128112807891516801582625927987); [exact r_D2| |exact c_I1].
  eapply r_eq; [exact r_S1|apply leqb_refl|vm_compute; reflexivity].
Qed.
Definition D1 : list bool := Eval vm_compute in mulm D2 S1.
Lemma r_D1 : reps D1 38597363079105398474523661669562635951089994888546854679819194669304376546645.
Proof.
  eapply r_eq; [eapply r_mul; [exact r_D2|exact r_S1]|vm_compute; reflexivity|vm_compute; reflexivity].
Qed.

Definition S0 : list bool := b256 0x54d6a48aae687fb68b7f13ce6607e276afab085596734aa97762f281b25ed782.
Lemma c_S0 : leqb (sqi 1 D1) S0 = true. Proof. vm_compute. reflexivity. Qed.
Lemma r_S0 : reps S0 77194726158210796949047323339125271902179989777093709359638389338608753093290.
Proof. eapply r_eq; [apply r_sq, r_D1|exact c_S0|vm_compute; reflexivity]. Qed.
Definition I0 : list bool := b256 0x54d6a48aae687fb68b7f13ce6607e276afab085596734aa97762f281b25ed782.
Definition E0 : list bool := Eval vm_compute in mulm I0 S0.
Lemma c_I0 : leqb (mulm I0 D1) one = true. Proof. vm_compute. reflexivity. Qed.
Lemma r_E0 : reps E0 38597363079105398474523661669562635951089994888546854679819194669304376546645.
Proof.
  apply (r_eq (mulm I0 S0) E0 38597363079105398474523661669562635951089994888546854679819194669304376546645 38597363079105398474523661669562635951089994888546854679819194669304376546645); [|vm_compute; reflexivity|reflexivity].
  apply (r_div D1 I0 S0 38597363079105398474523661669562635951089994888546854679819194669304376546645 38597363079105398474523661669562635951089994888546854679819194669304376546645); [exact r_D1| |exact c_I0].
  eapply r_eq; [exact r_S0|apply leqb_refl|vm_compute; reflexivity].
Qed.

Definition U_3 : list bool := b256 0x54d6a48aae687fb68b7f13ce6607e276afab085596734aa97762f281b25ed783.
Lemma nofix_3 v : wf v -> N.iter 38597363079105398474523661669562635951089994888546854679819194669304376546645 Tl v = v -> v = zero_st.
Proof.
  apply (r_nofix E0 U_3); [exact r_E0|vm_compute; reflexivity].
Qed.
Definition U_5 : list bool := b256 0x9b17f5767b72e1a3c673d4c3e369b20235e972559753b37fdedc95dc103781f.
Lemma nofix_5 v : wf v -> N.iter 23158417847463239084714197001737581570653996933128112807891516801582625927987 Tl v = v -> v = zero_st.
Proof.
  apply (r_nofix E1 U_5); [exact r_E1|vm_compute; reflexivity].
Qed.
Definition U_17 : list bool := b256 0xf4646ef27133b2d46393a4c40448d75b8f3adcab0a20793ef8bb26f5b81e7ecf.
Lemma nofix_17 v : wf v -> N.iter 6811299366900952671974763824040465167839410862684739061144563765171360567055 Tl v = v -> v = zero_st.
Proof.
  apply (r_nofix E2 U_17); [exact r_E2|vm_compute; reflexivity].
Qed.
Definition U_257 : list bool := b256 0x618e9a9a97b4105e9870464ee696824b10a336ec58f59159b1165cabfe23cd76.
Lemma nofix_257 v : wf v -> N.iter 450552876409790643671482431940419874915447411150352389258589821042463539455 Tl v = v -> v = zero_st.
Proof.
  apply (r_nofix E3 U_257); [exact r_E3|vm_compute; reflexivity].
Qed.
Definition U_65537 : list bool := b256 0x5b7382b05dc5a20686e618650a39fab806017ce589bb2d98cf9b5a05139e793f.
Lemma nofix_65537 v : wf v -> N.iter 1766820105243087041267848467410591083712559083657179364930612997358944255 Tl v = v -> v = zero_st.
Proof.
  apply (r_nofix E4 U_65537); [exact r_E4|vm_compute; reflexivity].
Qed.
Definition U_641 : list bool := b256 0x56ced9120f236c15fdd49ed161d46abc0269afa58693de573c5dcc0645c4b0ff.
Lemma nofix_641 v : wf v -> N.iter 180642884925610289272341630278764286822574079041560942339247400948382417535 Tl v = v -> v = zero_st.
Proof.
  apply (r_nofix (powp E5 6700417) U_641); [eapply r_eq; [apply r_pow, r_E5|apply leqb_refl|vm_compute; reflexivity]|vm_compute; reflexivity].
Qed.
Definition U_6700417 : list bool := b256 0x1c10854fe79f6066b6b1fe5c68be2282e701b5777ef01c8fd5b0ea5458d18c36.
Lemma nofix_6700417 v : wf v -> N.iter 17281325809619937896935516850471830014948321076977830490170624307101055 Tl v = v -> v = zero_st.
Proof.
  apply (r_nofix (powp E5 641) U_6700417); [eapply r_eq; [apply r_pow, r_E5|apply leqb_refl|vm_compute; reflexivity]|vm_compute; reflexivity].
Qed.
Definition U_274177 : list bool := b256 0x24d5461cfd63732f63b6b60adc840b312db07c0c8c7b46872d3955d70f9e6ac5.
Lemma nofix_274177 v : wf v -> N.iter 422326049367073807881663979869529201403728192611490256438204459192102655 Tl v = v -> v = zero_st.
Proof.
  apply (r_nofix (powp E6 67280421310721) U_274177); [eapply r_eq; [apply r_pow, r_E6|apply leqb_refl|vm_compute; reflexivity]|vm_compute; reflexivity].
Qed.
Definition U_67280421310721 : list bool := b256 0xc3bc6f4888606c0bfb4a6ce96aa43d28506b49c1c962aba2928641dd24af8cf8.
Lemma nofix_67280421310721 v : wf v -> N.iter 1721036922503113971692907638171526209875755521904893141463060735 Tl v = v -> v = zero_st.
Proof.
  apply (r_nofix (powp E6 274177) U_67280421310721); [eapply r_eq; [apply r_pow, r_E6|apply leqb_refl|vm_compute; reflexivity]|vm_compute; reflexivity].
Qed.
Definition U_59649589127497217 : list bool := b256 0x2b0b5d0e0d5dcbfd343a0c7c13920e58856efc82f8b6f3e99a6368bb225afce6.
Lemma nofix_59649589127497217 v : wf v -> N.iter 1941205143757452242770874767385119893385096602219740994029055 Tl v = v -> v = zero_st.
Proof.
  apply (r_nofix (powp E7 5704689200685129054721) U_59649589127497217); [eapply r_eq; [apply r_pow, r_E7|apply leqb_refl|vm_compute; reflexivity]|vm_compute; reflexivity].
Qed.
Definition U_5704689200685129054721 : list bool := b256 0xca8fcba3c0dd08871d4e3f7290e3e7fb8436109b90a55fd4bc6fe9d31b611e5.
Lemma nofix_5704689200685129054721 v : wf v -> N.iter 20297703374166229616474325006177763232573806344580020735 Tl v = v -> v = zero_st.
Proof.
  apply (r_nofix (powp E7 59649589127497217) U_5704689200685129054721); [eapply r_eq; [apply r_pow, r_E7|apply leqb_refl|vm_compute; reflexivity]|vm_compute; reflexivity].
Qed.
