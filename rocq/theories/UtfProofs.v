(** Lemmas on the transcoders of UtfModel.v. *)
From Coq Require Import ZArith Lia Bool List ZifyBool.
From Verif Require Import Word UtfModel.
Import ListNotations.
Local Open Scope Z_scope.
Ltac Zify.zify_post_hook ::= Z.to_euclidean_division_equations.

(** ** The Unicode encoding forms *)
Definition scalar (c : Z) : Prop := 0 <= c < 55296 \/ 57344 <= c < 1114112.
Definition enc8 (c : Z) : list Z :=
  if c <? 128 then [c]
  else if c <? 2048 then [192 + c / 64; 128 + c mod 64]
  else if c <? 65536 then [224 + c / 4096; 128 + c / 64 mod 64; 128 + c mod 64]
  else [240 + c / 262144; 128 + c / 4096 mod 64; 128 + c / 64 mod 64; 128 + c mod 64].
Definition enc16 (c : Z) : list Z :=
  if c <? 65536 then [c] else [55296 + (c - 65536) / 1024; 56320 + (c - 65536) mod 1024].
(** The number a little endian machine reads for a big endian unit. *)
Definition store_be16 (u : Z) : Z := u mod 256 * 256 + u / 256.
Definition store_be32 (u : Z) : Z :=
  u mod 256 * 16777216 + u / 256 mod 256 * 65536 + u / 65536 mod 256 * 256 + u / 16777216.

(** ** Bits *)
Lemma mask : forall x n, 0 <= n -> Z.land x (Z.ones n) = x mod 2 ^ n.
Proof. intros x n H. apply Z.land_ones. exact H. Qed.
Lemma land1 : forall x, Z.land x 1 = x mod 2. Proof. intros x. apply (mask x 1). lia. Qed.
Lemma land3 : forall x, Z.land x 3 = x mod 4. Proof. intros x. apply (mask x 2). lia. Qed.
Lemma land7 : forall x, Z.land x 7 = x mod 8. Proof. intros x. apply (mask x 3). lia. Qed.
Lemma land15 : forall x, Z.land x 15 = x mod 16. Proof. intros x. apply (mask x 4). lia. Qed.
Lemma land31 : forall x, Z.land x 31 = x mod 32. Proof. intros x. apply (mask x 5). lia. Qed.
Lemma land63 : forall x, Z.land x 63 = x mod 64. Proof. intros x. apply (mask x 6). lia. Qed.
Lemma land255 : forall x, Z.land x 255 = x mod 256. Proof. intros x. apply (mask x 8). lia. Qed.
Lemma land1023 : forall x, Z.land x 1023 = x mod 1024. Proof. intros x. apply (mask x 10). lia. Qed.
Lemma shr : forall x n, 0 <= n -> Z.shiftr x n = x / 2 ^ n.
Proof. intros x n H. apply Z.shiftr_div_pow2. exact H. Qed.
Lemma shl : forall x n, 0 <= n -> Z.shiftl x n = x * 2 ^ n.
Proof. intros x n H. apply Z.shiftl_mul_pow2. exact H. Qed.

Lemma all_below : forall (n : nat) (P : Z -> bool), forallb P (map Z.of_nat (seq 0 n)) = true ->
  forall b, 0 <= b < Z.of_nat n -> P b = true.
Proof.
  intros n P H b Hb. rewrite forallb_forall in H. apply H. apply in_map_iff. exists (Z.to_nat b).
  split; [lia|]. apply in_seq. lia.
Qed.
Lemma cont_ok : forall x, 0 <= x < 64 -> cont (128 + x) = true.
Proof.
  intros x H. apply (all_below 64 (fun x => cont (128 + x))); [vm_compute; reflexivity|exact H].
Qed.

Lemma lor2 : forall a b, 0 <= b < 64 -> Z.lor (Z.shiftl a 6) b = a * 64 + b.
Proof. intros a b H. rewrite shl by lia. apply (lor_disjoint_add a b 6); [lia|exact H]. Qed.
Lemma lor3 : forall a b c, 0 <= b < 64 -> 0 <= c < 64 ->
  Z.lor (Z.lor (Z.shiftl a 12) (Z.shiftl b 6)) c = a * 4096 + b * 64 + c.
Proof.
  intros a b c Hb Hc. rewrite !shl by lia.
  rewrite (lor_disjoint_add a (b * 2 ^ 6) 12) by lia.
  replace (a * 2 ^ 12 + b * 2 ^ 6) with ((a * 64 + b) * 2 ^ 6) by lia.
  rewrite (lor_disjoint_add (a * 64 + b) c 6) by lia. lia.
Qed.
Lemma lor4 : forall a b c d, 0 <= b < 64 -> 0 <= c < 64 -> 0 <= d < 64 ->
  Z.lor (Z.lor (Z.lor (Z.shiftl a 18) (Z.shiftl b 12)) (Z.shiftl c 6)) d = a * 262144 + b * 4096 + c * 64 + d.
Proof.
  intros a b c d Hb Hc Hd. rewrite (shl a 18), (shl b 12) by lia.
  rewrite (lor_disjoint_add a (b * 2 ^ 12) 18) by lia.
  replace (a * 2 ^ 18 + b * 2 ^ 12) with (Z.shiftl (a * 64 + b) 12) by (rewrite shl by lia; lia).
  rewrite lor3 by lia. lia.
Qed.
Lemma lor5 : forall a b c d e, 0 <= b < 64 -> 0 <= c < 64 -> 0 <= d < 64 -> 0 <= e < 64 ->
  Z.lor (Z.lor (Z.lor (Z.lor (Z.shiftl a 24) (Z.shiftl b 18)) (Z.shiftl c 12)) (Z.shiftl d 6)) e
  = a * 16777216 + b * 262144 + c * 4096 + d * 64 + e.
Proof.
  intros a b c d e Hb Hc Hd He. rewrite (shl a 24), (shl b 18) by lia.
  rewrite (lor_disjoint_add a (b * 2 ^ 18) 24) by lia.
  replace (a * 2 ^ 24 + b * 2 ^ 18) with (Z.shiftl (a * 64 + b) 18) by (rewrite shl by lia; lia).
  rewrite lor4 by lia. lia.
Qed.

Lemma bswap16_spec : forall u, 0 <= u < 65536 -> bswap16 u = store_be16 u.
Proof.
  intros u H. unfold bswap16, store_be16. rewrite !land255, shr, shl by lia.
  rewrite (lor_disjoint_add (u mod 256) (u / 2 ^ 8 mod 256) 8) by (change (2 ^ 8) with 256; lia).
  change (2 ^ 8) with 256. lia.
Qed.
Lemma bswap32_spec : forall u, 0 <= u < 4294967296 -> bswap32 u = store_be32 u.
Proof.
  intros u H. unfold bswap32, store_be32. rewrite !land255, !shr, !shl by lia.
  change (2 ^ 8) with 256. change (2 ^ 16) with 65536. change (2 ^ 24) with 16777216.
  rewrite (lor_disjoint_add (u / 65536 mod 256) _ 8) by (change (2 ^ 8) with 256; lia).
  rewrite (lor_disjoint_add (u / 256 mod 256) _ 16) by (change (2 ^ 8) with 256; change (2 ^ 16) with 65536; lia).
  rewrite (lor_disjoint_add (u mod 256) _ 24) by (change (2 ^ 8) with 256; change (2 ^ 24) with 16777216; change (2 ^ 16) with 65536; lia).
  change (2 ^ 8) with 256; change (2 ^ 24) with 16777216; change (2 ^ 16) with 65536. lia.
Qed.
Lemma store_be16_inv : forall u, 0 <= u < 65536 -> store_be16 (store_be16 u) = u /\ 0 <= store_be16 u < 65536.
Proof. intros u H. unfold store_be16. lia. Qed.
Lemma bytes_of : forall u, 0 <= u < 4294967296 -> exists a b c e,
  0 <= a < 256 /\ 0 <= b < 256 /\ 0 <= c < 256 /\ 0 <= e < 256 /\ u = ((e * 256 + c) * 256 + b) * 256 + a.
Proof.
  intros u H. exists (u mod 256), (u / 256 mod 256), (u / 256 / 256 mod 256), (u / 256 / 256 / 256).
  set (q := u / 256). assert (u = q * 256 + u mod 256) by (unfold q; clear; lia).
  assert (0 <= u mod 256 < 256) by (clear; lia). clearbody q. set (a := u mod 256) in *. clearbody a.
  set (q2 := q / 256). assert (q = q2 * 256 + q mod 256) by (unfold q2; clear; lia).
  assert (0 <= q mod 256 < 256) by (clear; lia). clearbody q2. set (b := q mod 256) in *. clearbody b.
  set (q3 := q2 / 256). assert (q2 = q3 * 256 + q2 mod 256) by (unfold q3; clear; lia).
  assert (0 <= q2 mod 256 < 256) by (clear; lia). clearbody q3. set (c := q2 mod 256) in *. clearbody c.
  lia.
Qed.
Lemma store_be32_bytes : forall a b c e, 0 <= a < 256 -> 0 <= b < 256 -> 0 <= c < 256 -> 0 <= e < 256 ->
  store_be32 (((e * 256 + c) * 256 + b) * 256 + a) = ((a * 256 + b) * 256 + c) * 256 + e.
Proof.
  intros a b c e Ha Hb Hc He. unfold store_be32.
  set (u := ((e * 256 + c) * 256 + b) * 256 + a).
  assert (E1 : u mod 256 = a) by (symmetry; apply (Z.mod_unique u 256 ((e * 256 + c) * 256 + b)); unfold u; lia).
  assert (E2 : u / 256 = (e * 256 + c) * 256 + b) by (symmetry; apply (Z.div_unique u 256 _ a); unfold u; lia).
  assert (E3 : u / 65536 = e * 256 + c) by (symmetry; apply (Z.div_unique u 65536 _ (b * 256 + a)); unfold u; lia).
  assert (E4 : u / 16777216 = e) by (symmetry; apply (Z.div_unique u 16777216 _ ((c * 256 + b) * 256 + a)); unfold u; lia).
  rewrite E1, E2, E3, E4.
  assert (E5 : ((e * 256 + c) * 256 + b) mod 256 = b) by (symmetry; apply (Z.mod_unique _ 256 (e * 256 + c)); lia).
  assert (E6 : (e * 256 + c) mod 256 = c) by (symmetry; apply (Z.mod_unique _ 256 e); lia).
  rewrite E5, E6. clear. lia.
Qed.
Lemma store_be32_inv : forall u, 0 <= u < 4294967296 -> store_be32 (store_be32 u) = u /\ 0 <= store_be32 u < 4294967296.
Proof.
  intros u H. destruct (bytes_of u H) as (a & b & c & e & Ha & Hb & Hc & He & ->).
  rewrite !store_be32_bytes by assumption. split; [reflexivity|]. clear H. lia.
Qed.
Lemma bswap16_be : forall u, 0 <= u < 65536 -> bswap16 (store_be16 u) = u.
Proof. intros u H. destruct (store_be16_inv u H) as [E R]. rewrite bswap16_spec; assumption. Qed.
Lemma bswap32_be : forall u, 0 <= u < 4294967296 -> bswap32 (store_be32 u) = u.
Proof. intros u H. destruct (store_be32_inv u H) as [E R]. rewrite bswap32_spec; assumption. Qed.

Lemma lor_128 : forall x, 0 <= x < 64 -> Z.lor x 128 = 128 + x.
Proof. intros x H. change 128 with (2 * 2 ^ 6). apply lor_disjoint_add'; [lia|exact H]. Qed.
Lemma lor_192 : forall x, 0 <= x < 32 -> Z.lor x 192 = 192 + x.
Proof. intros x H. change 192 with (6 * 2 ^ 5). apply lor_disjoint_add'; [lia|exact H]. Qed.
Lemma lor_224 : forall x, 0 <= x < 16 -> Z.lor x 224 = 224 + x.
Proof. intros x H. change 224 with (14 * 2 ^ 4). apply lor_disjoint_add'; [lia|exact H]. Qed.
Lemma lor_240 : forall x, 0 <= x < 8 -> Z.lor x 240 = 240 + x.
Proof. intros x H. change 240 with (30 * 2 ^ 3). apply lor_disjoint_add'; [lia|exact H]. Qed.
Lemma lor_248 : forall x, 0 <= x < 4 -> Z.lor x 248 = 248 + x.
Proof. intros x H. change 248 with (62 * 2 ^ 2). apply lor_disjoint_add'; [lia|exact H]. Qed.

Lemma form2_spec : forall c, 128 <= c < 2048 -> form2 c = [192 + c / 64; 128 + c mod 64].
Proof.
  intros c H. unfold form2, to8. rewrite land31, land63, shr by lia. change (2 ^ 6) with 64.
  rewrite (lor_192 (c / 64 mod 32)), (lor_128 (c mod 64)) by lia.
    f_equal; [lia|]. f_equal; lia.
Qed.
Lemma form3_spec : forall c, 0 <= c < 65536 -> form3 c = [224 + c / 4096; 128 + c / 64 mod 64; 128 + c mod 64].
Proof.
  intros c H. unfold form3, to8. rewrite land15, !land63, !shr by lia.
  change (2 ^ 6) with 64. change (2 ^ 12) with 4096.
  rewrite (lor_224 (c / 4096 mod 16)), (lor_128 (c mod 64)),
    (lor_128 (c / 64 mod 64)) by lia.
   
  f_equal; [clear - H; lia|]. f_equal; [|f_equal]; clear - H; lia.
Qed.
Lemma form4_spec : forall c, 0 <= c < 2097152 ->
  form4 c = [240 + c / 262144; 128 + c / 4096 mod 64; 128 + c / 64 mod 64; 128 + c mod 64].
Proof.
  intros c H. unfold form4, to8. rewrite land7, !land63, !shr by lia.
  change (2 ^ 6) with 64. change (2 ^ 12) with 4096. change (2 ^ 18) with 262144.
  rewrite (lor_240 (c / 262144 mod 8)), (lor_128 (c mod 64)),
    (lor_128 (c / 64 mod 64)), (lor_128 (c / 4096 mod 64)) by lia.
   
  f_equal; [clear - H; lia|]. f_equal; [|f_equal; [|f_equal]]; clear - H; lia.
Qed.
Lemma form5_spec : forall c, 0 <= c < 67108864 ->
  form5 c = [248 + c / 16777216; 128 + c / 262144 mod 64; 128 + c / 4096 mod 64; 128 + c / 64 mod 64; 128 + c mod 64].
Proof.
  intros c H. unfold form5, to8. rewrite land3, !land63, !shr by lia.
  change (2 ^ 6) with 64. change (2 ^ 12) with 4096. change (2 ^ 18) with 262144. change (2 ^ 24) with 16777216.
  rewrite (lor_248 (c / 16777216 mod 4)), (lor_128 (c mod 64)),
    (lor_128 (c / 64 mod 64)), (lor_128 (c / 4096 mod 64)),
    (lor_128 (c / 262144 mod 64)) by lia.
   
  f_equal; [clear - H; lia|]. f_equal; [|f_equal; [|f_equal; [|f_equal]]]; clear - H; lia.
Qed.

Lemma pair_spec : forall c, 65536 <= c < 1114112 ->
  pair (55296 + (c - 65536) / 1024) (56320 + (c - 65536) mod 1024) = c.
Proof.
  intros c H. unfold pair, to32. rewrite shl by lia. change (2 ^ 10) with 1024.
  set (x := c - 65536). assert (Hx : 0 <= x < 1048576) by (unfold x; lia).
  replace (55296 + x / 1024 - 55296) with (x / 1024) by lia.
  replace (56320 + x mod 1024 - 56320) with (x mod 1024) by lia.
  rewrite (Z.mod_small (x / 1024)) by (clear - Hx; lia).
  rewrite (Z.mod_small (x / 1024 * 1024)) by (clear - Hx; lia).
  rewrite (Z.mod_small (x mod 1024)) by (clear - Hx; lia).
  change (x / 1024 * 1024) with (x / 1024 * 2 ^ 10). rewrite (lor_disjoint_add (x / 1024) (x mod 1024) 10) by (change (2 ^ 10) with 1024; clear - Hx; lia).
  change (2 ^ 10) with 1024. rewrite Z.mod_small by (clear - Hx; lia).
  assert (c = x + 65536) by (unfold x; lia). clearbody x. clear - Hx H0. lia.
Qed.

(** ** Writing *)
Lemma put_ok : forall u d, (length (out d) < cap d)%nat -> put u d = Some (mkdst (out d ++ [u]) (cap d)).
Proof. intros u d H. unfold put. destruct (Nat.ltb_spec (length (out d)) (cap d)); [reflexivity|lia]. Qed.
Lemma puts_ok : forall us d, (length (out d) + length us <= cap d)%nat ->
  puts us d = Some (mkdst (out d ++ us) (cap d)).
Proof.
  intros us. induction us as [|u us IH]; intros [o c] H; cbn [puts out cap] in *.
  - rewrite app_nil_r. reflexivity.
  - cbn [length] in H. rewrite put_ok by (cbn; lia). cbn [out cap]. rewrite IH by (cbn; rewrite app_length; cbn; lia).
    cbn [out cap]. rewrite <- app_assoc. reflexivity.
Qed.

(** ** UTF-8 to UTF-16 *)
Lemma u8_u16_step : forall sw c r d, scalar c -> (length (out d) + length (enc16 c) <= cap d)%nat ->
  u8_u16_loop sw (enc8 c ++ r) d = u8_u16_loop sw r (mkdst (out d ++ map sw (enc16 c)) (cap d)).
Proof.
  intros sw c r d Hs Hc. unfold enc8, enc16 in *.
  assert (R : 0 <= c < 1114112) by (unfold scalar in Hs; lia). clear Hs.
  destruct (Z.ltb_spec c 128) as [L1|L1]; [|destruct (Z.ltb_spec c 2048) as [L2|L2]; [|destruct (Z.ltb_spec c 65536) as [L3|L3]]].
  - replace (c <? 65536) with true in * by lia. cbn [app u8_u16_loop map length] in *.
    replace (248 <=? c) with false by lia. replace (240 <=? c) with false by lia. replace (224 <=? c) with false by lia.
    replace (192 <=? c) with false by lia. replace (128 <=? c) with false by lia.
    rewrite put_ok by lia. reflexivity.
  - replace (c <? 65536) with true in * by lia. cbn [app u8_u16_loop map length] in *.
    replace (248 <=? 192 + c / 64) with false by lia. replace (240 <=? 192 + c / 64) with false by lia.
    replace (224 <=? 192 + c / 64) with false by lia. replace (192 <=? 192 + c / 64) with true by lia.
    rewrite cont_ok by lia. unfold low6, to16. rewrite land31, land63, lor2 by lia.
    replace (((192 + c / 64) mod 32 * 64 + (128 + c mod 64) mod 64) mod 65536) with c by (clear - L1 L2; lia).
    rewrite put_ok by lia. reflexivity.
  - cbn [app u8_u16_loop map length] in *.
    replace (248 <=? 224 + c / 4096) with false by lia. replace (240 <=? 224 + c / 4096) with false by lia.
    replace (224 <=? 224 + c / 4096) with true by lia.
    rewrite !cont_ok by lia. cbn [andb]. unfold low6, to16. rewrite land15, !land63, lor3 by lia.
    replace (((224 + c / 4096) mod 16 * 4096 + (128 + c / 64 mod 64) mod 64 * 64 + (128 + c mod 64) mod 64) mod 65536)
      with c by (clear - L2 L3; lia).
    rewrite put_ok by lia. reflexivity.
  - cbn [app u8_u16_loop map] in *.
    replace (248 <=? 240 + c / 262144) with false by (clear - L3 R; lia).
    replace (240 <=? 240 + c / 262144) with true by (clear - L3 R; lia).
    rewrite !cont_ok by (clear; lia). cbn [andb]. unfold low6. rewrite land7, !land63, lor4 by (clear; lia).
    replace ((240 + c / 262144) mod 8 * 262144 + (128 + c / 4096 mod 64) mod 64 * 4096
       + (128 + c / 64 mod 64) mod 64 * 64 + (128 + c mod 64) mod 64) with c by (clear - L3 R; lia).
    rewrite shr, land1023 by lia. change (2 ^ 10) with 1024. unfold to32, to16.
    rewrite (Z.mod_small (c - 65536)) by lia.
    rewrite (Z.mod_small ((c - 65536) / 1024 + 55296)) by (clear - L3 R; lia).
    rewrite (Z.mod_small ((c - 65536) mod 1024 + 56320)) by (clear - L3 R; lia).
    rewrite (Z.add_comm _ 55296), (Z.add_comm _ 56320).
    rewrite puts_ok; [reflexivity|]. exact Hc.
Qed.
Lemma enc_len : forall c, (length (enc16 c) <= length (enc8 c))%nat.
Proof.
  intros c. unfold enc8, enc16. destruct (Z.ltb_spec c 128), (Z.ltb_spec c 2048), (Z.ltb_spec c 65536); cbn; lia.
Qed.
Lemma u8_u16_text : forall sw cs d, Forall scalar cs -> (length (out d) + length (flat_map enc8 cs) <= cap d)%nat ->
  u8_u16_loop sw (flat_map enc8 cs) d = Some (mkdst (out d ++ map sw (flat_map enc16 cs)) (cap d), false).
Proof.
  intros sw cs. induction cs as [|c cs IH]; intros d F H.
  - cbn. rewrite app_nil_r. destruct d; reflexivity.
  - inversion F as [|? ? F1 F2]; subst. cbn [flat_map] in *. rewrite app_length in H. assert (E := enc_len c).
    rewrite u8_u16_step by (assumption || lia). rewrite IH by (cbn [out cap]; try rewrite app_length, map_length; assumption || lia).
    cbn [out cap]. rewrite map_app, app_assoc. reflexivity.
Qed.

(** ** UTF-8 to UTF-32 *)
Definition enc8x (c : Z) : list Z :=
  if c <? 2097152 then enc8 c
  else [248 + c / 16777216; 128 + c / 262144 mod 64; 128 + c / 4096 mod 64; 128 + c / 64 mod 64; 128 + c mod 64].
Lemma u8_u32_five : forall sw q b0 b1 b2 b3 b4 r d, 248 <= b0 < 252 ->
  cont b1 = true -> cont b2 = true -> cont b3 = true -> cont b4 = true -> (length (out d) < cap d)%nat ->
  u8_u32_loop sw q (b0 :: b1 :: b2 :: b3 :: b4 :: r) d
  = u8_u32_loop sw q r (mkdst (out d ++ [sw (to32 (Z.lor (Z.lor (Z.lor (Z.lor (Z.shiftl (Z.land b0 3) 24) (Z.shiftl (low6 b1) 18))
                         (Z.shiftl (low6 b2) 12)) (Z.shiftl (low6 b3) 6)) (low6 b4)))]) (cap d)).
Proof.
  intros sw q b0 b1 b2 b3 b4 r d Hb H1 H2 H3 H4 Hc.
  assert (A1 : (254 <=? b0) = false) by lia. assert (A2 : (252 <=? b0) = false) by lia.
  assert (A3 : (248 <=? b0) = true) by lia.
  remember (b1 :: b2 :: b3 :: b4 :: r) as r0 eqn:E.
  cbn [u8_u32_loop]. rewrite A1, A2, A3, E. clear E r0.
  rewrite H1, H2, H3, H4. cbn [andb]. rewrite put_ok by lia. reflexivity.
Qed.
Lemma u8_u32_step : forall sw q c r d, 0 <= c < 67108864 -> (length (out d) < cap d)%nat ->
  u8_u32_loop sw q (enc8x c ++ r) d = u8_u32_loop sw q r (mkdst (out d ++ [sw c]) (cap d)).
Proof.
  intros sw q c r d R Hc. unfold enc8x, enc8 in *.
  destruct (Z.ltb_spec c 2097152) as [L4|L4]; [
    destruct (Z.ltb_spec c 128) as [L1|L1]; [|destruct (Z.ltb_spec c 2048) as [L2|L2]; [|destruct (Z.ltb_spec c 65536) as [L3|L3]]]|].
  - cbn [app u8_u32_loop]. replace (254 <=? c) with false by lia. replace (252 <=? c) with false by lia.
    replace (248 <=? c) with false by lia. replace (240 <=? c) with false by lia. replace (224 <=? c) with false by lia.
    replace (192 <=? c) with false by lia. replace (128 <=? c) with false by lia.
    rewrite put_ok by lia. reflexivity.
  - cbn [app u8_u32_loop].
    replace (254 <=? 192 + c / 64) with false by lia. replace (252 <=? 192 + c / 64) with false by lia.
    replace (248 <=? 192 + c / 64) with false by lia. replace (240 <=? 192 + c / 64) with false by lia.
    replace (224 <=? 192 + c / 64) with false by lia. replace (192 <=? 192 + c / 64) with true by lia.
    rewrite cont_ok by lia. unfold low6, to32. rewrite land31, land63, lor2 by lia.
    replace (((192 + c / 64) mod 32 * 64 + (128 + c mod 64) mod 64) mod 4294967296) with c by (clear - L1 L2; lia).
    rewrite put_ok by lia. reflexivity.
  - cbn [app u8_u32_loop].
    replace (254 <=? 224 + c / 4096) with false by lia. replace (252 <=? 224 + c / 4096) with false by lia.
    replace (248 <=? 224 + c / 4096) with false by lia. replace (240 <=? 224 + c / 4096) with false by lia.
    replace (224 <=? 224 + c / 4096) with true by lia.
    rewrite !cont_ok by lia. cbn [andb]. unfold low6, to32. rewrite land15, !land63, lor3 by lia.
    replace (((224 + c / 4096) mod 16 * 4096 + (128 + c / 64 mod 64) mod 64 * 64 + (128 + c mod 64) mod 64) mod 4294967296)
      with c by (clear - L2 L3; lia).
    rewrite put_ok by lia. reflexivity.
  - cbn [app u8_u32_loop].
    replace (254 <=? 240 + c / 262144) with false by (clear - L3 L4; lia).
    replace (252 <=? 240 + c / 262144) with false by (clear - L3 L4; lia).
    replace (248 <=? 240 + c / 262144) with false by (clear - L3 L4; lia).
    replace (240 <=? 240 + c / 262144) with true by (clear - L3 L4; lia).
    rewrite !cont_ok by (clear; lia). cbn [andb]. unfold low6, to32. rewrite land7, !land63, lor4 by (clear; lia).
    replace ((240 + c / 262144) mod 8 * 262144 + (128 + c / 4096 mod 64) mod 64 * 4096
       + (128 + c / 64 mod 64) mod 64 * 64 + (128 + c mod 64) mod 64) with c by (clear - L3 L4; lia).
    rewrite Z.mod_small by lia. rewrite put_ok by lia. reflexivity.
  - cbn [app]. rewrite u8_u32_five by (assumption || (apply cont_ok; clear; lia) || (clear - R L4; lia)). f_equal. f_equal. f_equal.
    f_equal. f_equal. unfold low6, to32. rewrite land3, !land63, lor5 by (clear; lia).
    replace ((248 + c / 16777216) mod 4 * 16777216 + (128 + c / 262144 mod 64) mod 64 * 262144
       + (128 + c / 4096 mod 64) mod 64 * 4096
       + (128 + c / 64 mod 64) mod 64 * 64 + (128 + c mod 64) mod 64) with c by (clear - R L4; lia).
    apply Z.mod_small. lia.
Qed.
Lemma enc8x_len : forall c, (1 <= length (enc8x c) <= 5)%nat.
Proof.
  intros c. unfold enc8x, enc8. destruct (Z.ltb_spec c 2097152), (Z.ltb_spec c 128), (Z.ltb_spec c 2048), (Z.ltb_spec c 65536); cbn; lia.
Qed.
Lemma u8_u32_text : forall sw q cs d, Forall (fun c => 0 <= c < 67108864) cs ->
  (length (out d) + length (flat_map enc8x cs) <= cap d)%nat ->
  u8_u32_loop sw q (flat_map enc8x cs) d = Some (mkdst (out d ++ map sw cs) (cap d), false).
Proof.
  intros sw q cs. induction cs as [|c cs IH]; intros d F H.
  - cbn. rewrite app_nil_r. destruct d; reflexivity.
  - inversion F as [|? ? F1 F2]; subst. cbn [flat_map] in *. rewrite app_length in H. assert (E := enc8x_len c).
    rewrite u8_u32_step by (assumption || lia). rewrite IH by (cbn [out cap]; try rewrite app_length; cbn [length]; assumption || lia).
    cbn [out cap map]. rewrite <- app_assoc. reflexivity.
Qed.
Lemma enc8x_scalar : forall cs, Forall scalar cs -> flat_map enc8x cs = flat_map enc8 cs.
Proof.
  intros cs F. induction F as [|c cs H F IH]; [reflexivity|]. cbn [flat_map]. rewrite IH. f_equal.
  unfold enc8x. replace (c <? 2097152) with true by (unfold scalar in H; lia). reflexivity.
Qed.

(** ** Growing destinations *)
Section Grow.
Variable grant : nat -> nat -> option nat.
Hypothesis GR : forall k n c, grant k n = Some c -> (n <= c)%nat.

Lemma ensure_ok : forall k need d,
  ensure grant k need d = None
  \/ exists k' c, ensure grant k need d = Some (k', mkdst (out d) c) /\ (length (out d) + need <= c)%nat.
Proof.
  intros k need [o c]. unfold ensure. cbn [out cap]. destruct (Nat.ltb_spec c (length o + need)).
  - destruct (grant k (length o + need)) as [c'|] eqn:E; [|left; reflexivity].
    right. exists (S k), c'. split; [reflexivity|]. apply (GR k). exact E.
  - right. exists k, c. split; [reflexivity|lia].
Qed.
Lemma ensure_plenty : forall k need d, (forall k n, grant k n <> None) -> ensure grant k need d <> None.
Proof.
  intros k need d P. unfold ensure. destruct (cap d <? length (out d) + need)%nat; [|discriminate].
  destruct (grant k (length (out d) + need)) eqn:E; [discriminate|]. exact (fun _ => P _ _ E).
Qed.

(** What a loop with capacity checks may return when [l] is what it is meant to write. *)
Definition writes (l : list Z) (d : dst) (g : grown) : Prop :=
  (g = GFail /\ ~ (forall k n, grant k n <> None)) \/ exists c, g = GOk (mkdst (out d ++ l) c) 0.

(** What UTF-32 to UTF-8 writes for one value. *)
Definition w32_8 (ch : Z) : list Z :=
  if ch <? 128 then [to8 ch]
  else if ch <? 2048 then form2 ch
  else if ch <? 65536 then form3 ch
  else if ch <? 2097152 then form4 ch
  else if ch <? 67108864 then form5 ch
  else if ch <? 2147483648 then form6 ch
  else [qmark].
Lemma w32_8_len : forall ch, (length (w32_8 ch) <= 6)%nat.
Proof.
  intros ch. unfold w32_8. repeat match goal with |- context [if ?b then _ else _] => destruct b end; cbn; lia.
Qed.
Lemma u32_u8_run : forall si src k d,
  writes (flat_map (fun u => w32_8 (si u)) src) d (u32_u8_loop grant si src k d).
Proof.
  intros si src. induction src as [|u r IH]; intros k d; cbn [u32_u8_loop flat_map].
  - right. exists (cap d). rewrite app_nil_r. destruct d; reflexivity.
  - destruct (ensure_ok k 6 d) as [E|(k' & c & E & H)].
    + rewrite E. left. split; [reflexivity|]. intros P. exact (ensure_plenty k 6 d P E).
    + rewrite E. fold (w32_8 (si u)). assert (L := w32_8_len (si u)).
      rewrite puts_ok by (cbn [out cap]; lia). cbn [out cap].
      destruct (IH k' (mkdst (out d ++ w32_8 (si u)) c)) as [F|(c' & F)]; [left; exact F|].
      right. exists c'. rewrite F. cbn [out]. rewrite <- app_assoc. reflexivity.
Qed.

Definition w32_16 (so cast : Z -> Z) (q ch : Z) : list Z :=
  if ch <? 65536 then [so (to16 ch)]
  else if ch <? 1114112 then
    let c := to32 (ch - 65536) in
    [so (cast (Z.shiftr c 10 + 55296)); so (cast (Z.land c 1023 + 56320))]
  else [q].
Lemma w32_16_len : forall so cast q ch, (length (w32_16 so cast q ch) <= 2)%nat.
Proof.
  intros so cast q ch. unfold w32_16. repeat match goal with |- context [if ?b then _ else _] => destruct b end; cbn; lia.
Qed.
Lemma u32_u16_run : forall si so cast q src k d,
  writes (flat_map (fun u => w32_16 so cast q (si u)) src) d (u32_u16_loop grant si so cast q src k d).
Proof.
  intros si so cast q src. induction src as [|u r IH]; intros k d; cbn [u32_u16_loop flat_map].
  - right. exists (cap d). rewrite app_nil_r. destruct d; reflexivity.
  - destruct (ensure_ok k 2 d) as [E|(k' & c & E & H)].
    + rewrite E. left. split; [reflexivity|]. intros P. exact (ensure_plenty k 2 d P E).
    + rewrite E. fold (w32_16 so cast q (si u)). assert (L := w32_16_len so cast q (si u)).
      rewrite puts_ok by (cbn [out cap]; lia). cbn [out cap].
      destruct (IH k' (mkdst (out d ++ w32_16 so cast q (si u)) c)) as [F|(c' & F)]; [left; exact F|].
      right. exists c'. rewrite F. cbn [out]. rewrite <- app_assoc. reflexivity.
Qed.

(** What UTF-16 to UTF-8 writes, as a function of the pending lead. *)
Definition w16_8 (ch : Z) : list Z :=
  if ch <? 128 then [to8 ch] else if ch <? 2048 then form2 ch
  else if (ch <? 55296) || (57344 <? ch) then form3 ch else [].
Definition lead8 (ch : Z) : Z :=
  if ch <? 128 then 0 else if ch <? 2048 then 0
  else if (ch <? 55296) || (57344 <? ch) then 0 else ch.
Definition low_after (last ch : Z) : bool := negb (last =? 0) && (56320 <=? ch) && (ch <? 57344).
Fixpoint p16_8 (last : Z) (src : list Z) : list Z * Z :=
  match src with
  | [] => ([], last)
  | ch :: r =>
      if low_after last ch then let '(l, e) := p16_8 0 r in (form4 (pair last ch) ++ l, e)
      else
        let q := if negb (last =? 0) then [qmark] else [] in
        let '(l, e) := p16_8 (lead8 ch) r in (q ++ w16_8 ch ++ l, e)
  end.
Definition writes2 (p : list Z * Z) (d : dst) (g : grown) : Prop :=
  (g = GFail /\ ~ (forall k n, grant k n <> None))
  \/ exists c, g = GOk (mkdst (out d ++ fst p) c) (snd p) /\ (length (out d) + length (fst p) <= c)%nat
     /\ (snd p <> 0%Z -> (length (out d) + length (fst p) < c)%nat).
Lemma u16_u8_run : forall si src last k d, src <> [] ->
  writes2 (p16_8 last (map si src)) d (u16_u8_loop grant si src last k d).
Proof.
  intros si src. induction src as [|u r IH]; intros last k d NE; [contradiction|]. clear NE.
  cbn [u16_u8_loop map p16_8]. set (ch := si u).
  destruct (ensure_ok k 4 d) as [E|(k' & c & E & H)].
  { rewrite E. left. split; [reflexivity|]. intros P. exact (ensure_plenty k 4 d P E). }
  rewrite E. fold (low_after last ch).
  assert (K : forall l last' (m : nat), (length l <= m)%nat -> (m <= 4)%nat -> (last' <> 0%Z -> (m < 4)%nat) ->
    writes2 (let '(l', e) := p16_8 last' (map si r) in (l ++ l', e)) d
            (u16_u8_loop grant si r last' k' (mkdst (out d ++ l) c))).
  { intros l last' m Hl Hm Hz. destruct r as [|u2 r2].
    - cbn [u16_u8_loop map p16_8]. right. exists c. rewrite app_nil_r. cbn [fst snd out].
      split; [reflexivity|]. split; [lia|]. intros Hn. specialize (Hz Hn). lia.
    - destruct (IH last' k' (mkdst (out d ++ l) c) ltac:(discriminate)) as [F|(c' & F1 & F2 & F3)]; [left; exact F|].
      right. exists c'. destruct (p16_8 last' (map si (u2 :: r2))) as [l' e]. cbn [fst snd out] in *.
      rewrite app_length in *. rewrite app_assoc. split; [exact F1|]. split; [lia|]. intros Hn. specialize (F3 Hn). lia. }
  destruct (low_after last ch) eqn:LA.
  - rewrite puts_ok by (cbn [out cap form4 length]; lia). cbn [out cap].
    apply (K _ 0 4%nat); [cbn; lia|lia|lia].
  - assert (Q : forall l last', (length l <= 3)%nat -> (last' <> 0%Z -> length l = 0%nat) ->
       puts l (mkdst (out d ++ (if negb (last =? 0) then [qmark] else [])) c)
         = Some (mkdst ((out d ++ (if negb (last =? 0) then [qmark] else [])) ++ l) c)
       /\ writes2 (let '(l', e) := p16_8 last' (map si r) in ((if negb (last =? 0) then [qmark] else []) ++ l ++ l', e)) d
            (u16_u8_loop grant si r last' k' (mkdst ((out d ++ (if negb (last =? 0) then [qmark] else [])) ++ l) c))).
    { intros l last' Hl Hz. split.
      - apply puts_ok. cbn [out cap]. rewrite app_length. destruct (negb (last =? 0)); cbn [length]; lia.
      - rewrite <- app_assoc.
        assert (G := K ((if negb (last =? 0) then [qmark] else []) ++ l) last' (length ((if negb (last =? 0) then [qmark] else []) ++ l)) (le_n _)).
        destruct (p16_8 last' (map si r)) as [l' e]. rewrite app_assoc. apply G; rewrite app_length.
        + destruct (negb (last =? 0)); cbn [length]; lia.
        + intros Hn. specialize (Hz Hn). destruct (negb (last =? 0)); cbn [length]; lia. }
    replace (if negb (last =? 0) then put qmark (mkdst (out d) c) else Some (mkdst (out d) c))
      with (Some (mkdst (out d ++ (if negb (last =? 0) then [qmark] else [])) c)).
    2:{ destruct (negb (last =? 0)); [rewrite put_ok by (cbn [out cap]; lia); reflexivity|rewrite app_nil_r; reflexivity]. }
    unfold w16_8, lead8. destruct (ch <? 128); [|destruct (ch <? 2048); [|destruct ((ch <? 55296) || (57344 <? ch))]].
    + destruct (Q [to8 ch] 0) as [A B]; [cbn; lia|lia|]. cbn [puts] in A.
      destruct (put (to8 ch) _) as [d'|]; [|discriminate]. injection A as ->. exact B.
    + destruct (Q (form2 ch) 0) as [A B]; [cbn; lia|lia|]. rewrite A. exact B.
    + destruct (Q (form3 ch) 0) as [A B]; [cbn; lia|lia|]. rewrite A. exact B.
    + destruct (Q [] ch) as [A B]; [cbn; lia|reflexivity|]. rewrite app_nil_r in B. exact B.
Qed.
End Grow.

(** The UTF-16 form of a text, read back. *)
Definition enc8q (c : Z) : list Z := if c =? 57344 then [qmark] else enc8 c.
Definition fin (p : list Z * Z) : list Z := fst p ++ (if negb (snd p =? 0) then [qmark] else []).
Lemma p16_8_q : forall last src, 55296 <= last -> 
  match src with u :: _ => u < 56320 \/ 57344 <= u | [] => True end ->
  fin (p16_8 last src) = qmark :: fin (p16_8 0 src).
Proof.
  intros last [|u r] H Hu; unfold fin.
  - cbn. replace (last =? 0) with false by lia. reflexivity.
  - cbn [p16_8]. unfold low_after. replace (last =? 0) with false by lia.
    replace (56320 <=? u) with (57344 <=? u) by lia.
    replace (negb false && (57344 <=? u) && (u <? 57344)) with false by lia. cbn [negb andb Z.eqb].
    destruct (p16_8 (lead8 u) r) as [l e]. reflexivity.
Qed.
Lemma enc16_first : forall cs, Forall scalar cs ->
  match flat_map enc16 cs with u :: _ => u < 56320 \/ 57344 <= u | [] => True end.
Proof.
  intros [|c cs] F; [exact I|]. inversion F as [|? ? H _]; subst. cbn [flat_map]. unfold enc16, scalar in *.
  destruct (Z.ltb_spec c 65536); cbn [app]; [lia|]. left. clear - H H0. lia.
Qed.
Lemma p16_8_text : forall cs, Forall scalar cs -> fin (p16_8 0 (flat_map enc16 cs)) = flat_map enc8q cs.
Proof.
  intros cs F. induction F as [|c cs H F IH]; [reflexivity|]. cbn [flat_map]. rewrite <- IH. unfold enc16 at 1.
  destruct (Z.ltb_spec c 65536) as [L|L].
  - cbn [app p16_8]. unfold low_after. cbn [Z.eqb negb andb].
    destruct (Z.eqb_spec c 57344) as [->|NE].
    + change (lead8 57344) with 57344. change (w16_8 57344) with (@nil Z). change (enc8q 57344) with [qmark].
      cbn [app]. rewrite <- (p16_8_q 57344 (flat_map enc16 cs)) by (lia || apply enc16_first; exact F).
      destruct (p16_8 57344 (flat_map enc16 cs)). reflexivity.
    + assert (E : w16_8 c = enc8q c /\ lead8 c = 0).
      { unfold w16_8, lead8, enc8q, enc8, scalar in *. replace (c =? 57344) with false by lia.
        destruct (Z.ltb_spec c 128); [unfold to8; rewrite Z.mod_small by lia; split; reflexivity|].
        destruct (Z.ltb_spec c 2048); [rewrite form2_spec by lia; split; reflexivity|].
        replace ((c <? 55296) || (57344 <? c)) with true by lia. replace (c <? 65536) with true by lia.
        rewrite form3_spec by lia. split; reflexivity. }
      destruct E as [-> ->]. destruct (p16_8 0 (flat_map enc16 cs)) as [l e].
      unfold fin. cbn [fst snd app]. rewrite <- app_assoc. reflexivity.
  - assert (R : 65536 <= c < 1114112) by (unfold scalar in H; lia).
    cbn [app]. set (hi := 55296 + (c - 65536) / 1024). set (lo := 56320 + (c - 65536) mod 1024).
    assert (Hhi : 55296 <= hi < 56320) by (unfold hi; clear - R; lia).
    assert (Hlo : 56320 <= lo < 57344) by (unfold lo; clear - R; lia).
    assert (P := pair_spec c R). fold hi lo in P. clearbody hi lo.
    cbn [p16_8]. unfold low_after at 1. cbn [Z.eqb negb andb]. unfold w16_8, lead8.
    replace (hi <? 128) with false by lia. replace (hi <? 2048) with false by lia.
    replace ((hi <? 55296) || (57344 <? hi)) with false by lia.
    unfold low_after. replace (hi =? 0) with false by lia.
    replace (negb false && (56320 <=? lo) && (lo <? 57344)) with true by lia. rewrite P.
    destruct (p16_8 0 (flat_map enc16 cs)) as [l e]. unfold fin. cbn [fst snd app]. rewrite <- app_assoc.
    rewrite form4_spec by lia. unfold enc8q, enc8. replace (c =? 57344) with false by lia.
    replace (c <? 128) with false by lia. replace (c <? 2048) with false by lia. replace (c <? 65536) with false by lia.
    reflexivity.
Qed.

(** ** UTF-16 to UTF-32 *)
Definition lead32 (ch : Z) : Z := if (55296 <=? ch) && (ch <=? 57344) then ch else 0.
Fixpoint p16_32 (last : Z) (src : list Z) : list Z * bool :=
  match src with
  | [] => ([], negb (last =? 0))
  | ch :: r =>
      if low_after last ch then let '(l, e) := p16_32 0 r in (pair last ch :: l, e)
      else
        let q := if negb (last =? 0) then [qmark] else [] in
        let '(l, e) := p16_32 (lead32 ch) r in
        (q ++ (if (55296 <=? ch) && (ch <=? 57344) then [] else [ch]) ++ l, e)
  end.
Lemma p16_32_len : forall src last,
  (length (fst (p16_32 last src)) + (if snd (p16_32 last src) then 1 else 0) <= length src + (if (last =? 0)%Z then 0 else 1))%nat.
Proof.
  induction src as [|ch r IH]; intros last; cbn [p16_32].
  - cbn. destruct (last =? 0); cbn; lia.
  - destruct (low_after last ch) eqn:E.
    + specialize (IH 0). destruct (p16_32 0 r) as [l e]. cbn [fst snd length Z.eqb] in *. unfold low_after in E.
      destruct (last =? 0); [discriminate|]. lia.
    + specialize (IH (lead32 ch)). destruct (p16_32 (lead32 ch) r) as [l e]. cbn [fst snd length] in *.
      rewrite !app_length. unfold lead32 in IH. destruct ((55296 <=? ch) && (ch <=? 57344)) eqn:C.
      * replace (ch =? 0) with false in IH by lia. destruct (last =? 0); cbn [negb length]; lia.
      * cbn [Z.eqb] in IH. destruct (last =? 0); cbn [negb length]; lia.
Qed.
Lemma u16_u32_run : forall si so src last d,
  (length (out d) + length (fst (p16_32 last (map si src))) <= cap d)%nat ->
  u16_u32_loop si so src last d
  = Some (mkdst (out d ++ map so (fst (p16_32 last (map si src)))) (cap d), snd (p16_32 last (map si src))).
Proof.
  intros si so src. induction src as [|u r IH]; intros last d H; cbn [u16_u32_loop map p16_32] in *.
  - cbn. rewrite app_nil_r. destruct d; reflexivity.
  - fold (low_after last (si u)). destruct (low_after last (si u)).
    + specialize (IH 0). destruct (p16_32 0 (map si r)) as [l e]. cbn [fst snd length map] in *.
      rewrite put_ok by lia. rewrite IH by (cbn [out cap]; rewrite app_length; cbn [length]; lia).
      cbn [out cap]. rewrite <- app_assoc. reflexivity.
    + specialize (IH (lead32 (si u))). destruct (p16_32 (lead32 (si u)) (map si r)) as [l e]. cbn [fst snd] in *.
      rewrite !app_length in H.
      replace (if negb (last =? 0) then put (so qmark) d else Some d)
        with (Some (mkdst (out d ++ map so (if negb (last =? 0) then [qmark] else [])) (cap d))).
      2:{ destruct (negb (last =? 0)); cbn [length map] in *; [rewrite put_ok by lia; reflexivity|rewrite app_nil_r; destruct d; reflexivity]. }
      rewrite !map_app. unfold lead32 in IH. destruct ((55296 <=? si u) && (si u <=? 57344)).
      * rewrite IH by (cbn [out cap]; rewrite app_length, map_length; cbn [length] in *; lia).
        cbn [out cap map app]. rewrite <- app_assoc. reflexivity.
      * rewrite put_ok by (cbn [out cap]; rewrite app_length, map_length; cbn [length] in *; lia). cbn [out cap].
        rewrite IH by (cbn [out cap]; rewrite !app_length, map_length; cbn [length] in *; lia).
        cbn [out cap map app]. rewrite <- !app_assoc. reflexivity.
Qed.
Definition dec32q (c : Z) : Z := if c =? 57344 then qmark else c.
Definition fin32 (p : list Z * bool) : list Z := fst p ++ (if snd p then [qmark] else []).
Lemma p16_32_q : forall last src, 55296 <= last ->
  match src with u :: _ => u < 56320 \/ 57344 <= u | [] => True end ->
  fin32 (p16_32 last src) = qmark :: fin32 (p16_32 0 src).
Proof.
  intros last [|u r] H Hu; unfold fin32.
  - cbn. replace (last =? 0) with false by lia. reflexivity.
  - cbn [p16_32]. unfold low_after. replace (last =? 0) with false by lia.
    replace (56320 <=? u) with (57344 <=? u) by lia.
    replace (negb false && (57344 <=? u) && (u <? 57344)) with false by lia. cbn [negb andb Z.eqb].
    destruct (p16_32 (lead32 u) r) as [l e]. reflexivity.
Qed.
Lemma p16_32_text : forall cs, Forall scalar cs -> fin32 (p16_32 0 (flat_map enc16 cs)) = map dec32q cs.
Proof.
  intros cs F. induction F as [|c cs H F IH]; [reflexivity|]. cbn [flat_map map]. rewrite <- IH. unfold enc16 at 1.
  destruct (Z.ltb_spec c 65536) as [L|L].
  - cbn [app p16_32]. unfold low_after. cbn [Z.eqb negb andb]. unfold dec32q, lead32.
    destruct (Z.eqb_spec c 57344) as [->|NE].
    + change ((55296 <=? 57344) && (57344 <=? 57344)) with true. cbn match.
      cbn [app]; rewrite <- (p16_32_q 57344 (flat_map enc16 cs)) by (lia || apply enc16_first; exact F).
      destruct (p16_32 57344 (flat_map enc16 cs)). reflexivity.
    + replace ((55296 <=? c) && (c <=? 57344)) with false by (unfold scalar in H; lia).
      destruct (p16_32 0 (flat_map enc16 cs)) as [l e]. reflexivity.
  - assert (R : 65536 <= c < 1114112) by (unfold scalar in H; lia).
    cbn [app]. set (hi := 55296 + (c - 65536) / 1024). set (lo := 56320 + (c - 65536) mod 1024).
    assert (Hhi : 55296 <= hi < 56320) by (unfold hi; clear - R; lia).
    assert (Hlo : 56320 <= lo < 57344) by (unfold lo; clear - R; lia).
    assert (P := pair_spec c R). fold hi lo in P. clearbody hi lo.
    cbn [p16_32]. unfold low_after at 1. cbn [Z.eqb negb andb]. unfold lead32.
    replace ((55296 <=? hi) && (hi <=? 57344)) with true by lia.
    unfold low_after. replace (hi =? 0) with false by lia.
    replace (negb false && (56320 <=? lo) && (lo <? 57344)) with true by lia. rewrite P.
    destruct (p16_32 0 (flat_map enc16 cs)) as [l e]. unfold dec32q. replace (c =? 57344) with false by lia. reflexivity.
Qed.

(** ** Arbitrary input to the UTF-8 decoders: never more units than source bytes. *)
Lemma put_puts : forall u d, put u d = puts [u] d.
Proof. intros u d. cbn. destruct (put u d); reflexivity. Qed.
Definition size_ok (l : list Z) (b : bool) (src : list Z) : Prop := (length l + (if b then 1 else 0) <= length src)%nat.

(** Two runs of the UTF-16 loop, with the units swapped by [sw] and not swapped. *)
Definition both (sw : Z -> Z) (src : list Z) (o : list Z) (c : nat) (o' : list Z) (c' : nat)
    (x y : option (dst * bool)) : Prop :=
  exists l b, x = Some (mkdst (o ++ map sw l) c, b) /\ y = Some (mkdst (o' ++ l) c', b) /\ size_ok l b src.
Lemma both_step : forall (sw : Z -> Z) (n : nat) (usw us r0 r o : list Z) (c : nat) (o' : list Z) (c' : nat),
  (forall src o c o' c', (length src <= n)%nat -> (length o + length src <= c)%nat -> (length o' + length src <= c')%nat ->
     both sw src o c o' c' (u8_u16_loop sw src (mkdst o c)) (u8_u16_loop same src (mkdst o' c'))) ->
  usw = map sw us -> (length r <= n)%nat -> (length us + length r <= length r0)%nat ->
  (length o + length r0 <= c)%nat -> (length o' + length r0 <= c')%nat ->
  both sw r0 o c o' c'
    (match puts usw (mkdst o c) with Some d => u8_u16_loop sw r d | None => None end)
    (match puts us (mkdst o' c') with Some d => u8_u16_loop same r d | None => None end).
Proof.
  intros sw n usw us r0 r o c o' c' IH -> Hn Hl Hc Hc'.
  rewrite !puts_ok by (cbn [out cap]; rewrite ?map_length; lia). cbn [out cap].
  destruct (IH r (o ++ map sw us) c (o' ++ us) c' Hn) as (l & b & E & E' & L).
  - rewrite app_length, map_length. lia.
  - rewrite app_length. lia.
  - rewrite E, E'. exists (us ++ l), b. unfold size_ok in *. rewrite map_app, !app_assoc, app_length.
    split; [reflexivity|]. split; [reflexivity|lia].
Qed.
Ltac stop2 := exists [], true; unfold size_ok; cbn [map length]; rewrite ?app_nil_r; split; [reflexivity|]; split; [reflexivity|cbn [length]; lia].
Ltac wstep2 IH := rewrite ?put_puts; eapply (both_step _ _ _ _ _ _ _ _ _ _ IH); [reflexivity|cbn [length] in *; lia ..].
Lemma u8_u16_both : forall sw n src o c o' c',
  (length src <= n)%nat -> (length o + length src <= c)%nat -> (length o' + length src <= c')%nat ->
  both sw src o c o' c' (u8_u16_loop sw src (mkdst o c)) (u8_u16_loop same src (mkdst o' c')).
Proof.
  intros sw n. induction n as [|n IH]; intros src o c o' c' A H H'.
  - destruct src; [|cbn in A; lia]. exists [], false. unfold size_ok. cbn. rewrite !app_nil_r. split; [reflexivity|]. split; [reflexivity|lia].
  - destruct src as [|b0 r0].
    { exists [], false. unfold size_ok. cbn. rewrite !app_nil_r. split; [reflexivity|]. split; [reflexivity|lia]. }
    cbn [u8_u16_loop].
    destruct (248 <=? b0); [wstep2 IH|]. destruct (240 <=? b0).
    { destruct r0 as [|b1 [|b2 [|b3 r]]]; [stop2|stop2|stop2|]. destruct (cont b1 && cont b2 && cont b3); wstep2 IH. }
    destruct (224 <=? b0).
    { destruct r0 as [|b1 [|b2 r]]; [stop2|stop2|]. destruct (cont b1 && cont b2); wstep2 IH. }
    destruct (192 <=? b0).
    { destruct r0 as [|b1 r]; [stop2|]. destruct (cont b1); wstep2 IH. }
    destruct (128 <=? b0); wstep2 IH.
Qed.

Definition within (loop : list Z -> dst -> option (dst * bool)) : Prop := forall src d,
  (length (out d) + length src <= cap d)%nat ->
  exists l b, loop src d = Some (mkdst (out d ++ l) (cap d), b) /\ size_ok l b src.
Lemma u8_u16_within : forall sw, within (u8_u16_loop sw).
Proof.
  intros sw src [o c] H. destruct (u8_u16_both sw (length src) src o c o c (le_n _) H H) as (l & b & E & _ & L).
  exists (map sw l), b. split; [exact E|]. unfold size_ok in *. rewrite map_length. exact L.
Qed.
Lemma within_step : forall (loop : list Z -> dst -> option (dst * bool)) (n : nat) (us r0 r : list Z) (d : dst),
  (forall src d, (length src <= n)%nat -> (length (out d) + length src <= cap d)%nat ->
     exists l b, loop src d = Some (mkdst (out d ++ l) (cap d), b) /\ size_ok l b src) ->
  (length r <= n)%nat -> (length us + length r <= length r0)%nat -> (length (out d) + length r0 <= cap d)%nat ->
  exists l b, match puts us d with Some d => loop r d | None => None end = Some (mkdst (out d ++ l) (cap d), b)
     /\ size_ok l b r0.
Proof.
  intros loop n us r0 r d IH Hn Hl Hc. rewrite puts_ok by lia.
  destruct (IH r (mkdst (out d ++ us) (cap d)) Hn) as (l & b & E & L).
  - cbn [out cap]. rewrite app_length. lia.
  - rewrite E. exists (us ++ l), b. unfold size_ok in *. cbn [out cap]. rewrite app_assoc, app_length. split; [reflexivity|lia].
Qed.
Ltac stop d := exists [], true; unfold size_ok; rewrite app_nil_r; cbn [length]; split; [destruct d; reflexivity|cbn [length]; lia].
Ltac wstep IH := rewrite ?put_puts; eapply (within_step _ _ _ _ _ _ IH); cbn [length] in *; lia.
Lemma u8_u32_within : forall sw q, within (u8_u32_loop sw q).
Proof.
  intros sw q src d. assert (A : exists n, (length src <= n)%nat) by (exists (length src); lia). destruct A as [n A].
  revert src d A. induction n as [|n IH]; intros src d A H.
  - destruct src; [|cbn in A; lia]. exists [], false. unfold size_ok. cbn. rewrite app_nil_r. destruct d. split; [reflexivity|lia].
  - destruct src as [|b0 r0]; [exists [], false; unfold size_ok; cbn; rewrite app_nil_r; destruct d; split; [reflexivity|lia]|].
    cbn [u8_u32_loop].
    destruct (254 <=? b0); [wstep IH|]. destruct (252 <=? b0).
    { destruct r0 as [|b1 [|b2 [|b3 [|b4 [|b5 r]]]]]; [stop d|stop d|stop d|stop d|stop d|].
      destruct (cont b1 && cont b2 && cont b3 && cont b4 && cont b5); wstep IH. }
    destruct (248 <=? b0).
    { destruct r0 as [|b1 [|b2 [|b3 [|b4 r]]]]; [stop d|stop d|stop d|stop d|].
      destruct (cont b1 && cont b2 && cont b3 && cont b4); wstep IH. }
    destruct (240 <=? b0).
    { destruct r0 as [|b1 [|b2 [|b3 r]]]; [stop d|stop d|stop d|]. destruct (cont b1 && cont b2 && cont b3); wstep IH. }
    destruct (224 <=? b0).
    { destruct r0 as [|b1 [|b2 r]]; [stop d|stop d|]. destruct (cont b1 && cont b2); wstep IH. }
    destruct (192 <=? b0).
    { destruct r0 as [|b1 r]; [stop d|]. destruct (cont b1); wstep IH. }
    destruct (128 <=? b0); wstep IH.
Qed.
