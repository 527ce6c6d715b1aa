(** Theorems on the Unicode transcoders: C26-C30, C75, C76. *)
From Coq Require Import ZArith Lia Bool List ZifyBool.
From Verif Require Import Word UtfModel UtfProofs.
Import ListNotations.
Local Open Scope Z_scope.
Ltac Zify.zify_post_hook ::= Z.to_euclidean_division_equations.

(** ** Specification
    [scalar], [enc8], [enc16] of UtfProofs.v are the Unicode scalar values and their
    UTF-8 and UTF-16 forms, in arithmetic; [store_be16], [store_be32] the numbers that a
    little endian machine sees for big endian units, as the next lemmas say. *)
Definition bytes16 (u : Z) : list Z := [u mod 256; u / 256].
Definition bytes32 (u : Z) : list Z := [u mod 256; u / 256 mod 256; u / 65536 mod 256; u / 16777216].
Lemma store_be16_rev : forall u, 0 <= u < 65536 -> bytes16 (store_be16 u) = rev (bytes16 u).
Proof. intros u H. unfold bytes16, store_be16. cbn [rev app]. f_equal; [lia|]. f_equal. lia. Qed.
Lemma store_be32_rev : forall u, 0 <= u < 4294967296 -> bytes32 (store_be32 u) = rev (bytes32 u).
Proof.
  intros u H. destruct (bytes_of u H) as (a & b & c & e & Ha & Hb & Hc & He & ->). rewrite store_be32_bytes by assumption.
  assert (G : forall a b c e, 0 <= a < 256 -> 0 <= b < 256 -> 0 <= c < 256 -> 0 <= e < 256 ->
    bytes32 (((e * 256 + c) * 256 + b) * 256 + a) = [a; b; c; e]).
  { clear. intros a b c e Ha Hb Hc He. unfold bytes32.
    set (u := ((e * 256 + c) * 256 + b) * 256 + a).
    assert (E1 : u mod 256 = a) by (symmetry; apply (Z.mod_unique u 256 ((e * 256 + c) * 256 + b)); unfold u; lia).
    assert (E2 : u / 256 = (e * 256 + c) * 256 + b) by (symmetry; apply (Z.div_unique u 256 _ a); unfold u; lia).
    assert (E3 : u / 65536 = e * 256 + c) by (symmetry; apply (Z.div_unique u 65536 _ (b * 256 + a)); unfold u; lia).
    assert (E4 : u / 16777216 = e) by (symmetry; apply (Z.div_unique u 16777216 _ ((c * 256 + b) * 256 + a)); unfold u; lia).
    rewrite E1, E2, E3, E4.
    assert (E5 : ((e * 256 + c) * 256 + b) mod 256 = b) by (symmetry; apply (Z.mod_unique _ 256 (e * 256 + c)); lia).
    assert (E6 : (e * 256 + c) mod 256 = c) by (symmetry; apply (Z.mod_unique _ 256 e); lia).
    rewrite E5, E6. reflexivity. }
  rewrite !G by assumption. reflexivity.
Qed.

(** An allocator that gives at least what it is asked for; one that never fails. *)
Definition granted (g : nat -> nat -> option nat) : Prop := forall k n c, g k n = Some c -> (n <= c)%nat.
Definition plenty (g : nat -> nat -> option nat) : Prop := forall k n, g k n <> None.
Definition exact (k n : nat) : option nat := Some n.
Definition nomem (k n : nat) : option nat := if (k =? 0)%nat then Some n else None.
Lemma exact_ok : granted exact /\ plenty exact.
Proof. split; [intros k n c H; injection H as ->; lia|discriminate]. Qed.
Lemma nomem_ok : granted nomem.
Proof. intros k n c H. unfold nomem in H. destruct (k =? 0)%nat; [injection H as ->; lia|discriminate]. Qed.

(** Destination unchanged or appended to, and no write behind the buffer. *)
Definition keeps (old : list Z) (r : result) : Prop :=
  match r with Done t => exists l, t = old ++ l | Failed t => t = old | Overrun => False end.

(** ** Frames *)
Lemma once_text : forall g loop tail n old src l, granted g -> plenty g -> src <> [] ->
  (forall c, (length old + n <= c)%nat -> loop (mkdst old c) = Some (mkdst (old ++ l) c, false)) ->
  once g loop tail n old src = Done (old ++ l).
Proof.
  intros g loop tail n old src l G P NE H. unfold once. destruct src; [contradiction|].
  destruct (g 0%nat (length old + n)%nat) as [c|] eqn:E; [|destruct (P _ _ E)].
  rewrite (H c (G _ _ _ E)). reflexivity.
Qed.
Lemma once_keeps : forall g loop tail old src, granted g ->
  (forall d, (length (out d) + length src <= cap d)%nat ->
     exists l b, loop d = Some (mkdst (out d ++ l) (cap d), b) /\ size_ok l b src) ->
  match once g loop tail (length src) old src with
  | Done t => exists l, t = old ++ l /\ (length l <= length src)%nat
  | Failed t => t = old
  | Overrun => False
  end.
Proof.
  intros g loop tail old src G H. unfold once. destruct src as [|u r].
  - exists []. rewrite app_nil_r. split; [reflexivity|cbn; lia].
  - destruct (g 0%nat (length old + length (u :: r))%nat) as [c|] eqn:E; [|reflexivity].
    destruct (H (mkdst old c)) as (l & b & F & L); [cbn [out cap]; apply (G _ _ _ E)|].
    assert (C := G _ _ _ E). rewrite F. cbn [out cap]. unfold size_ok in L. destruct b.
    + rewrite put_ok by (cbn [out cap]; rewrite app_length; lia). cbn [out].
      exists (l ++ [tail]). rewrite app_assoc, app_length. cbn [length] in *. split; [reflexivity|lia].
    + exists l. split; [reflexivity|lia].
Qed.
Lemma grow_writes : forall g loop n old src l, granted g ->
  (forall c, (length old + n <= c)%nat -> writes g l (mkdst old c) (loop (mkdst old c))) ->
  (src = [] -> l = []) ->
  grow g loop n old src = Done (old ++ l) \/ (grow g loop n old src = Failed old /\ ~ plenty g).
Proof.
  intros g loop n old src l G H Z. unfold grow. destruct src; [left; rewrite (Z eq_refl), app_nil_r; reflexivity|].
  destruct (g 0%nat (length old + n)%nat) as [c|] eqn:E.
  - destruct (H c (G _ _ _ E)) as [[F NP]|(c' & F)]; rewrite F; [right; split; [reflexivity|exact NP]|left; reflexivity].
  - right. split; [reflexivity|]. intros P. exact (P _ _ E).
Qed.
Lemma u16_u8_writes : forall g si cl old src, granted g ->
  u16_u8 g si cl old src = Done (old ++ fin (p16_8 0 (map si src)))
  \/ (exists t, u16_u8 g si cl old src = Failed t /\ (t = old \/ (cl = true /\ t = []))) /\ ~ plenty g.
Proof.
  intros g si cl old src G. unfold u16_u8. destruct src as [|u r]; [left; cbn; rewrite app_nil_r; reflexivity|].
  destruct (g 0%nat _) as [c|] eqn:E.
  - destruct (u16_u8_run g G si (u :: r) 0 1 (mkdst old c) ltac:(discriminate)) as [[F NP]|(c' & F & L1 & L2)].
    + right. rewrite F. split; [|exact NP]. eexists. split; [reflexivity|]. destruct cl; [right; split; reflexivity|left; reflexivity].
    + left. rewrite F. unfold fin. destruct (p16_8 0 (map si (u :: r))) as [l e]. cbn [fst snd out cap] in *.
      destruct (Z.eqb_spec e 0) as [->|Ne]; cbn [negb].
      * cbn [out]. rewrite app_nil_r. reflexivity.
      * rewrite put_ok by (cbn [out cap]; rewrite app_length; exact (L2 Ne)). cbn [out]. rewrite app_assoc. reflexivity.
  - right. split; [|intros P; exact (P _ _ E)]. exists old. split; [reflexivity|left; reflexivity].
Qed.

Lemma enc8_nonempty : forall cs, flat_map enc8 cs = [] -> cs = [].
Proof.
  intros [|c cs] H; [reflexivity|]. cbn [flat_map] in H. apply app_eq_nil in H. destruct H as [H _].
  unfold enc8 in H. destruct (c <? 128), (c <? 2048), (c <? 65536); discriminate.
Qed.
Lemma enc8x_nonempty : forall cs, flat_map enc8x cs = [] -> cs = [].
Proof.
  intros [|c cs] H; [reflexivity|]. cbn [flat_map] in H. apply app_eq_nil in H. destruct H as [H _].
  assert (L := enc8x_len c). rewrite H in L. cbn in L. lia.
Qed.
Lemma map_ext_forall : forall (P : Z -> Prop) (f h : Z -> Z) l, Forall P l -> (forall x, P x -> f x = h x) -> map f l = map h l.
Proof. intros P f h l F H. induction F as [|x l Px F IH]; [reflexivity|]. cbn. rewrite IH, (H x Px). reflexivity. Qed.
Lemma enc16_range : forall cs, Forall scalar cs -> Forall (fun u => 0 <= u < 65536) (flat_map enc16 cs).
Proof.
  intros cs F. induction F as [|c cs H F IH]; [constructor|]. cbn [flat_map]. apply Forall_app. split; [|exact IH].
  unfold enc16, scalar in *. destruct (Z.ltb_spec c 65536); repeat constructor; clear - H H0; lia.
Qed.
Lemma swap16_units : forall l, Forall (fun u => 0 <= u < 65536) l -> map bswap16 l = map store_be16 l.
Proof. intros l F. apply (map_ext_forall _ _ _ _ F). exact bswap16_spec. Qed.
Lemma read16_units : forall l, Forall (fun u => 0 <= u < 65536) l -> map bswap16 (map store_be16 l) = l.
Proof.
  intros l F. rewrite map_map. rewrite (map_ext_forall _ (fun x => bswap16 (store_be16 x)) (fun x => x) l F); [apply map_id|].
  exact bswap16_be.
Qed.

(** ** C26: UTF-8 to UTF-16 *)
Theorem C26_u8_u16LE : forall g old cs, granted g -> plenty g -> Forall scalar cs ->
  u8_u16LE g old (flat_map enc8 cs) = Done (old ++ flat_map enc16 cs).
Proof.
  intros g old cs G P F. destruct (flat_map enc8 cs) as [|u r] eqn:E.
  - apply enc8_nonempty in E. subst. cbn. rewrite app_nil_r. reflexivity.
  - unfold u8_u16LE. apply once_text; [assumption|assumption|discriminate|]. intros c Hc. rewrite <- E in *.
    rewrite u8_u16_text by assumption. unfold same. rewrite map_id. reflexivity.
Qed.
Theorem C26_u8_u16BE : forall g old cs, granted g -> plenty g -> Forall scalar cs ->
  u8_u16BE g old (flat_map enc8 cs) = Done (old ++ map store_be16 (flat_map enc16 cs)).
Proof.
  intros g old cs G P F. destruct (flat_map enc8 cs) as [|u r] eqn:E.
  - apply enc8_nonempty in E. subst. cbn. rewrite app_nil_r. reflexivity.
  - unfold u8_u16BE. apply once_text; [assumption|assumption|discriminate|]. intros c Hc. rewrite <- E in *.
    rewrite u8_u16_text by assumption. rewrite swap16_units by (apply enc16_range; exact F). reflexivity.
Qed.
(** "A", e acute, the euro sign, a grinning face, appended to "x". *)
Definition sample : list Z := [65; 233; 8364; 128512].
Lemma sample_ok : Forall scalar sample.
Proof. repeat constructor; unfold scalar; lia. Qed.
Example C26_case :
  flat_map enc8 sample = [65; 195; 169; 226; 130; 172; 240; 159; 152; 128]
  /\ u8_u16LE exact [120] (flat_map enc8 sample) = Done [120; 65; 233; 8364; 55357; 56832]
  /\ u8_u16BE exact [120] (flat_map enc8 sample) = Done [120; 16640; 59648; 44064; 15832; 222].
Proof. vm_compute. auto. Qed.

(** ** C27: UTF-16 to UTF-8.  U+E000 is taken for a surrogate and becomes '?'. *)
Theorem C27_u16LE_u8_exact : forall g old cs, granted g -> plenty g -> Forall scalar cs ->
  u16LE_u8 g old (flat_map enc16 cs)
  = Done (old ++ flat_map (fun c => if c =? 0xE000 then [63] else enc8 c) cs).
Proof.
  intros g old cs G P F. unfold u16LE_u8. destruct (u16_u8_writes g same true old (flat_map enc16 cs) G) as [E|[_ NP]]; [|destruct (NP P)].
  rewrite E. unfold same at 1. rewrite map_id, p16_8_text by exact F. reflexivity.
Qed.
Theorem C27_u16BE_u8_exact : forall g old cs, granted g -> plenty g -> Forall scalar cs ->
  u16BE_u8 g old (map store_be16 (flat_map enc16 cs))
  = Done (old ++ flat_map (fun c => if c =? 0xE000 then [63] else enc8 c) cs).
Proof.
  intros g old cs G P F. unfold u16BE_u8.
  destruct (u16_u8_writes g bswap16 false old (map store_be16 (flat_map enc16 cs)) G) as [E|[_ NP]]; [|destruct (NP P)].
  rewrite E, read16_units by (apply enc16_range; exact F). rewrite p16_8_text by exact F. reflexivity.
Qed.
Lemma no_e000 : forall cs, ~ In 0xE000 cs -> flat_map (fun c => if c =? 0xE000 then [63] else enc8 c) cs = flat_map enc8 cs.
Proof.
  induction cs as [|c cs IH]; intros H; [reflexivity|]. cbn [flat_map]. cbn [In] in H. rewrite IH by tauto.
  destruct (Z.eqb_spec c 0xE000); [subst; tauto|reflexivity].
Qed.
Theorem C27_u16_u8_partial : forall g old cs, granted g -> plenty g -> Forall scalar cs -> ~ In 0xE000 cs ->
  u16LE_u8 g old (flat_map enc16 cs) = Done (old ++ flat_map enc8 cs)
  /\ u16BE_u8 g old (map store_be16 (flat_map enc16 cs)) = Done (old ++ flat_map enc8 cs).
Proof.
  intros g old cs G P F N. rewrite C27_u16LE_u8_exact, C27_u16BE_u8_exact by assumption. rewrite no_e000 by exact N. split; reflexivity.
Qed.
Theorem C27_u16_u8_refuted : exists cs, Forall scalar cs
  /\ u16LE_u8 exact [] (flat_map enc16 cs) = Done [63] /\ flat_map enc8 cs = [238; 128; 128].
Proof. exists [0xE000]. split; [repeat constructor; unfold scalar; lia|]. split; reflexivity. Qed.
Example C27_case : ~ In 0xE000 sample
  /\ u16BE_u8 exact [120] (map store_be16 (flat_map enc16 sample)) = Done (120 :: flat_map enc8 sample).
Proof. split; [cbn; lia|vm_compute; reflexivity]. Qed.

(** ** C28: UTF-32 to UTF-16 *)
Lemma w32_16_scalar : forall so q c, scalar c -> w32_16 so to16 q c = map so (enc16 c).
Proof.
  intros so q c H. unfold w32_16, enc16, scalar in *. destruct (Z.ltb_spec c 65536).
  - unfold to16. rewrite Z.mod_small by lia. reflexivity.
  - replace (c <? 1114112) with true by lia. unfold to32, to16. rewrite land1023, shr by lia. change (2 ^ 10) with 1024.
    rewrite (Z.mod_small (c - 65536)) by lia. cbn [map].
    rewrite !Z.mod_small by (clear - H H0; lia). rewrite (Z.add_comm _ 55296), (Z.add_comm _ 56320). reflexivity.
Qed.
Lemma flat_map_in : forall (f h : Z -> list Z) cs, Forall (fun c => f c = h c) cs -> flat_map f cs = flat_map h cs.
Proof. intros f h cs F. induction F as [|c cs H F IH]; [reflexivity|]. cbn [flat_map]. rewrite IH, H. reflexivity. Qed.
Lemma flat_map_map : forall (f : Z -> list Z) (h : Z -> Z) l, flat_map f (map h l) = flat_map (fun c => f (h c)) l.
Proof. intros f h l. induction l as [|x l IH]; [reflexivity|]. cbn. rewrite IH. reflexivity. Qed.
Lemma map_flat : forall (f : Z -> list Z) (h : Z -> Z) l, map h (flat_map f l) = flat_map (fun c => map h (f c)) l.
Proof. intros f h l. induction l as [|x l IH]; [reflexivity|]. cbn. rewrite map_app, IH. reflexivity. Qed.
Lemma scalar32 : forall c, scalar c -> 0 <= c < 4294967296.
Proof. intros c H. unfold scalar in H. lia. Qed.

Lemma u32_u16_grow : forall g si so cast q old src, granted g ->
  let r := grow g (u32_u16_loop g si so cast q src 1) (length src) old src in
  r = Done (old ++ flat_map (fun u => w32_16 so cast q (si u)) src) \/ (r = Failed old /\ ~ plenty g).
Proof.
  intros g si so cast q old src G r. apply grow_writes; [exact G| |intros ->; reflexivity].
  intros c _. apply u32_u16_run. exact G.
Qed.
Theorem C28_u32LE_u16BE : forall g old cs, granted g -> plenty g -> Forall scalar cs ->
  u32LE_u16BE g old cs = Done (old ++ map store_be16 (flat_map enc16 cs)).
Proof.
  intros g old cs G P F. destruct (u32_u16_grow g same bswap16 to16 qmark old cs G) as [E|[_ NP]]; [|destruct (NP P)].
  unfold u32LE_u16BE. rewrite E, <- swap16_units, map_flat by (apply enc16_range; exact F). do 2 f_equal.
  apply flat_map_in. revert F. apply Forall_impl. intros c H. apply w32_16_scalar. exact H.
Qed.
Theorem C28_u32BE_u16LE : forall g old cs, granted g -> plenty g -> Forall scalar cs ->
  u32BE_u16LE g old (map store_be32 cs) = Done (old ++ flat_map enc16 cs).
Proof.
  intros g old cs G P F. destruct (u32_u16_grow g bswap32 same to16 qmark old (map store_be32 cs) G) as [E|[_ NP]]; [|destruct (NP P)].
  unfold u32BE_u16LE. rewrite E, flat_map_map. do 2 f_equal.
  apply flat_map_in. revert F. apply Forall_impl. intros c H. rewrite bswap32_be by (apply scalar32; exact H).
  rewrite w32_16_scalar by exact H. unfold same. apply map_id.
Qed.
Theorem C28_u32BE_u16BE : forall g old cs, granted g -> plenty g -> Forall scalar cs ->
  u32BE_u16BE g old (map store_be32 cs) = Done (old ++ map store_be16 (flat_map enc16 cs)).
Proof.
  intros g old cs G P F. destruct (u32_u16_grow g bswap32 bswap16 to16 (bswap16 qmark) old (map store_be32 cs) G) as [E|[_ NP]]; [|destruct (NP P)].
  unfold u32BE_u16BE. rewrite E, flat_map_map, <- swap16_units, map_flat by (apply enc16_range; exact F). do 2 f_equal.
  apply flat_map_in. revert F. apply Forall_impl. intros c H. rewrite bswap32_be by (apply scalar32; exact H).
  apply w32_16_scalar. exact H.
Qed.
(** The little endian to little endian direction cuts surrogates to their low byte. *)
Theorem C28_u32LE_u16LE_exact : forall g old cs, granted g -> plenty g -> Forall scalar cs ->
  u32LE_u16LE g old cs
  = Done (old ++ flat_map (fun c => if c <? 65536 then [c] else map (fun u => u mod 256) (enc16 c)) cs).
Proof.
  intros g old cs G P F. destruct (u32_u16_grow g same same to8 qmark old cs G) as [E|[_ NP]]; [|destruct (NP P)].
  unfold u32LE_u16LE. rewrite E. do 2 f_equal. apply flat_map_in. revert F. apply Forall_impl. intros c H.
  unfold w32_16, enc16, same, scalar in *. destruct (Z.ltb_spec c 65536).
  - unfold to16. rewrite Z.mod_small by lia. reflexivity.
  - replace (c <? 1114112) with true by lia. unfold to32, to8. rewrite land1023, shr by lia. change (2 ^ 10) with 1024.
    rewrite (Z.mod_small (c - 65536)) by lia. cbn [map].
    rewrite (Z.add_comm _ 55296), (Z.add_comm _ 56320). reflexivity.
Qed.
Theorem C28_u32LE_u16LE_partial : forall g old cs, granted g -> plenty g -> Forall scalar cs ->
  Forall (fun c => c < 65536) cs -> u32LE_u16LE g old cs = Done (old ++ flat_map enc16 cs).
Proof.
  intros g old cs G P F B. rewrite C28_u32LE_u16LE_exact by assumption. do 2 f_equal. apply flat_map_in.
  revert B. apply Forall_impl. intros c H. unfold enc16. replace (c <? 65536) with true by lia. reflexivity.
Qed.
Theorem C28_u32LE_u16LE_refuted : exists cs, Forall scalar cs
  /\ u32LE_u16LE exact [] cs = Done [61; 0] /\ flat_map enc16 cs = [0xD83D; 0xDE00].
Proof. exists [0x1F600]. split; [repeat constructor; unfold scalar; lia|]. split; vm_compute; reflexivity. Qed.
Example C28_case :
  u32BE_u16LE exact [120] (map store_be32 sample) = Done [120; 65; 233; 8364; 55357; 56832]
  /\ u32LE_u16BE exact [] sample = Done [16640; 59648; 44064; 15832; 222]
  /\ u32LE_u16LE exact [] [65; 8364] = Done [65; 8364].
Proof. vm_compute. auto. Qed.

(** ** C29: UTF-32 and UTF-8 *)
Lemma w32_8_spec : forall c, 0 <= c < 67108864 -> w32_8 c = enc8x c.
Proof.
  intros c H. unfold w32_8, enc8x, enc8.
  destruct (Z.ltb_spec c 128).
  - replace (c <? 2097152) with true by lia. unfold to8. rewrite Z.mod_small by lia. reflexivity.
  - destruct (Z.ltb_spec c 2048); [rewrite form2_spec by lia; replace (c <? 2097152) with true by lia; reflexivity|].
    destruct (Z.ltb_spec c 65536); [rewrite form3_spec by lia; replace (c <? 2097152) with true by lia; reflexivity|].
    destruct (Z.ltb_spec c 2097152); [rewrite form4_spec by lia; reflexivity|].
    replace (c <? 67108864) with true by lia. apply form5_spec. exact H.
Qed.
Lemma u32_u8_grow : forall g si old src, granted g ->
  let r := grow g (u32_u8_loop g si src 1) (length src * 3) old src in
  r = Done (old ++ flat_map (fun u => w32_8 (si u)) src) \/ (r = Failed old /\ ~ plenty g).
Proof.
  intros g si old src G r. apply grow_writes; [exact G| |intros ->; reflexivity].
  intros c _. apply u32_u8_run. exact G.
Qed.
(** For all values below 2^26, of which the scalar values are a part. *)
Lemma u32LE_u8_wide : forall g old cs, granted g -> plenty g -> Forall (fun c => 0 <= c < 67108864) cs ->
  u32LE_u8 g old cs = Done (old ++ flat_map enc8x cs).
Proof.
  intros g old cs G P F. destruct (u32_u8_grow g same old cs G) as [E|[_ NP]]; [|destruct (NP P)].
  unfold u32LE_u8. rewrite E. do 2 f_equal. apply flat_map_in. revert F. apply Forall_impl. exact w32_8_spec.
Qed.
Lemma u8_u32LE_wide : forall g old cs, granted g -> plenty g -> Forall (fun c => 0 <= c < 67108864) cs ->
  u8_u32LE g old (flat_map enc8x cs) = Done (old ++ cs).
Proof.
  intros g old cs G P F. destruct (flat_map enc8x cs) as [|u r] eqn:E.
  - apply enc8x_nonempty in E. subst. cbn. rewrite app_nil_r. reflexivity.
  - unfold u8_u32LE. apply once_text; [assumption|assumption|discriminate|]. intros c Hc. rewrite <- E in *.
    rewrite u8_u32_text by assumption. unfold same. rewrite map_id. reflexivity.
Qed.
Lemma scalar_wide : forall cs, Forall scalar cs -> Forall (fun c => 0 <= c < 67108864) cs.
Proof. intros cs. apply Forall_impl. intros c H. unfold scalar in H. lia. Qed.
Theorem C29_u32LE_u8 : forall g old cs, granted g -> plenty g -> Forall scalar cs ->
  u32LE_u8 g old cs = Done (old ++ flat_map enc8 cs).
Proof.
  intros g old cs G P F. rewrite u32LE_u8_wide by (assumption || apply scalar_wide; exact F).
  rewrite enc8x_scalar by exact F. reflexivity.
Qed.
Theorem C29_u32BE_u8 : forall g old cs, granted g -> plenty g -> Forall scalar cs ->
  u32BE_u8 g old (map store_be32 cs) = Done (old ++ flat_map enc8 cs).
Proof.
  intros g old cs G P F. destruct (u32_u8_grow g bswap32 old (map store_be32 cs) G) as [E|[_ NP]]; [|destruct (NP P)].
  unfold u32BE_u8. rewrite E, flat_map_map, <- enc8x_scalar by exact F. do 2 f_equal.
  apply flat_map_in. revert F. apply Forall_impl. intros c H. rewrite bswap32_be by (apply scalar32; exact H).
  apply w32_8_spec. unfold scalar in H. lia.
Qed.
Theorem C29_u8_u32LE : forall g old cs, granted g -> plenty g -> Forall scalar cs ->
  u8_u32LE g old (flat_map enc8 cs) = Done (old ++ cs).
Proof.
  intros g old cs G P F. rewrite <- enc8x_scalar by exact F. apply u8_u32LE_wide; [assumption|assumption|apply scalar_wide; exact F].
Qed.
Theorem C29_u8_u32BE : forall g old cs, granted g -> plenty g -> Forall scalar cs ->
  u8_u32BE g old (flat_map enc8 cs) = Done (old ++ map store_be32 cs).
Proof.
  intros g old cs G P F. destruct (flat_map enc8 cs) as [|u r] eqn:E.
  - apply enc8_nonempty in E. subst. cbn. rewrite app_nil_r. reflexivity.
  - unfold u8_u32BE. apply once_text; [assumption|assumption|discriminate|]. intros c Hc. rewrite <- E in *.
    rewrite <- enc8x_scalar in * by exact F. rewrite u8_u32_text by (assumption || apply scalar_wide; exact F).
    cbn [out cap]. do 4 f_equal. apply (map_ext_forall scalar); [exact F|]. intros x Hx. apply bswap32_spec. apply scalar32. exact Hx.
Qed.
(** There and back, also for values that are no code points, as far as the five byte form goes. *)
Theorem C29_round_trip_partial : forall g h cs, granted g -> plenty g -> granted h -> plenty h ->
  Forall (fun c => 0 <= c < 2 ^ 26) cs ->
  exists bytes, u32LE_u8 g [] cs = Done bytes /\ u8_u32LE h [] bytes = Done cs.
Proof.
  intros g h cs G P G' P' F. exists (flat_map enc8x cs). split.
  - rewrite u32LE_u8_wide by assumption. reflexivity.
  - rewrite u8_u32LE_wide by assumption. reflexivity.
Qed.
(** The six byte form is written with a wrong second byte: 0x7FFFFFFF is not read back. *)
Theorem C29_round_trip_refuted : exists c bytes, 2 ^ 26 <= c < 2 ^ 31
  /\ u32LE_u8 exact [] [c] = Done bytes /\ u8_u32LE exact [] bytes <> Done [c].
Proof. exists 0x7FFFFFFF, [253; 255; 191; 191; 191; 191]. split; [lia|]. split; [vm_compute; reflexivity|vm_compute; discriminate]. Qed.
Example C29_case :
  u32LE_u8 exact [120] sample = Done (120 :: flat_map enc8 sample)
  /\ u8_u32BE exact [120] (flat_map enc8 sample) = Done [120; 0x41000000; 0xE9000000; 0xAC200000; 0x00F60100]
  /\ u8_u32LE exact [] [248; 136; 128; 128; 128] = Done [0x200000].
Proof. vm_compute. auto. Qed.

(** ** C75: UTF-16 to UTF-32.  U+E000 becomes '?', as in C27. *)
Lemma u16_u32_once : forall g si so old src tail, granted g -> plenty g -> tail = so qmark ->
  once g (u16_u32_loop si so src 0) tail (length src) old src = Done (old ++ map so (fin32 (p16_32 0 (map si src)))).
Proof.
  intros g si so old src tail G P ->. unfold once. destruct src as [|u r]; [cbn; rewrite app_nil_r; reflexivity|].
  destruct (g 0%nat _) as [c|] eqn:E; [|destruct (P _ _ E)]. apply G in E.
  assert (L := p16_32_len (map si (u :: r)) 0). cbn [Z.eqb] in L. rewrite map_length in L.
  rewrite u16_u32_run by (cbn [out cap]; lia). unfold fin32.
  destruct (p16_32 0 (map si (u :: r))) as [l e]. cbn [fst snd out cap] in *. destruct e.
  - rewrite put_ok by (cbn [out cap]; rewrite app_length, map_length; lia). cbn [out].
    rewrite map_app, app_assoc. reflexivity.
  - cbn [out]. rewrite app_nil_r. reflexivity.
Qed.
Theorem C75_u16LE_u32LE_exact : forall g old cs, granted g -> plenty g -> Forall scalar cs ->
  u16LE_u32LE g old (flat_map enc16 cs) = Done (old ++ map (fun c => if c =? 0xE000 then 63 else c) cs).
Proof.
  intros g old cs G P F. unfold u16LE_u32LE. rewrite (u16_u32_once g same same old _ qmark G P eq_refl).
  unfold same at 1 2. rewrite !map_id, p16_32_text by exact F. reflexivity.
Qed.
Theorem C75_u16BE_u32LE_exact : forall g old cs, granted g -> plenty g -> Forall scalar cs ->
  u16BE_u32LE g old (map store_be16 (flat_map enc16 cs)) = Done (old ++ map (fun c => if c =? 0xE000 then 63 else c) cs).
Proof.
  intros g old cs G P F. unfold u16BE_u32LE. rewrite (u16_u32_once g bswap16 same old _ qmark G P eq_refl).
  unfold same. rewrite map_id, read16_units, p16_32_text by (exact F || apply enc16_range; exact F). reflexivity.
Qed.
Theorem C75_u16BE_u32BE_exact : forall g old cs, granted g -> plenty g -> Forall scalar cs ->
  u16BE_u32BE g old (map store_be16 (flat_map enc16 cs))
  = Done (old ++ map (fun c => store_be32 (if c =? 0xE000 then 63 else c)) cs).
Proof.
  intros g old cs G P F. unfold u16BE_u32BE. rewrite (u16_u32_once g bswap16 bswap32 old _ (bswap32 qmark) G P eq_refl).
  rewrite read16_units, p16_32_text by (exact F || apply enc16_range; exact F). rewrite map_map. do 2 f_equal.
  apply (map_ext_forall scalar); [exact F|]. intros c H. apply bswap32_spec. unfold dec32q, qmark.
  apply scalar32 in H. destruct (c =? 57344); lia.
Qed.
Theorem C75_u16_u32_partial : forall g old cs, granted g -> plenty g -> Forall scalar cs -> ~ In 0xE000 cs ->
  u16LE_u32LE g old (flat_map enc16 cs) = Done (old ++ cs)
  /\ u16BE_u32LE g old (map store_be16 (flat_map enc16 cs)) = Done (old ++ cs)
  /\ u16BE_u32BE g old (map store_be16 (flat_map enc16 cs)) = Done (old ++ map store_be32 cs).
Proof.
  intros g old cs G P F N. rewrite C75_u16LE_u32LE_exact, C75_u16BE_u32LE_exact, C75_u16BE_u32BE_exact by assumption.
  assert (E : forall h : Z -> Z, map (fun c => h (if c =? 0xE000 then 63 else c)) cs = map h cs).
  { intros h. apply map_ext_in. intros c Hc. destruct (Z.eqb_spec c 0xE000); [subst; contradiction|reflexivity]. }
  split; [|split].
  - rewrite (E (fun c => c)), map_id. reflexivity.
  - rewrite (E (fun c => c)), map_id. reflexivity.
  - rewrite (E store_be32). reflexivity.
Qed.
Theorem C75_u16_u32_refuted : exists cs, Forall scalar cs
  /\ u16LE_u32LE exact [] (flat_map enc16 cs) = Done [63] /\ cs = [0xE000].
Proof. exists [0xE000]. split; [repeat constructor; unfold scalar; lia|]. split; reflexivity. Qed.
Example C75_case : u16BE_u32BE exact [120] (map store_be16 (flat_map enc16 sample)) = Done (120 :: map store_be32 sample).
Proof. vm_compute. reflexivity. Qed.

(** ** C30: any input, well formed or not; any allocator, also one that fails at any moment *)
Theorem C30_reserved_once : forall g f old src, granted g ->
  In f [u8_u16LE g; u8_u16BE g; u8_u32LE g; u8_u32BE g; u16LE_u32LE g; u16BE_u32LE g; u16BE_u32BE g; endian g bswap16; endian g bswap32] ->
  match f old src with
  | Done t => exists l, t = old ++ l /\ (length l <= length src)%nat
  | Failed t => t = old
  | Overrun => False
  end.
Proof.
  intros g f old src G H.
  assert (A : forall si so, (forall d, (length (out d) + length src <= cap d)%nat ->
     exists l b, u16_u32_loop si so src 0 d = Some (mkdst (out d ++ l) (cap d), b) /\ size_ok l b src)).
  { intros si so d Hd. assert (L := p16_32_len (map si src) 0). cbn [Z.eqb] in L. rewrite map_length in L.
    exists (map so (fst (p16_32 0 (map si src)))), (snd (p16_32 0 (map si src))).
    split; [apply u16_u32_run; lia|]. unfold size_ok. rewrite map_length. lia. }
  assert (B : forall sw, (forall d, (length (out d) + length src <= cap d)%nat ->
     exists l b, endian_loop sw src d = Some (mkdst (out d ++ l) (cap d), b) /\ size_ok l b src)).
  { intros sw d Hd. exists (map sw src), false. split; [|unfold size_ok; rewrite map_length; lia].
    clear H A. revert d Hd. induction src as [|u r IH]; intros d Hd; cbn [endian_loop map].
    - rewrite app_nil_r. destruct d; reflexivity.
    - cbn [length] in Hd. rewrite put_ok by lia. rewrite IH by (cbn [out cap]; rewrite app_length; cbn [length]; lia).
      cbn [out cap]. rewrite <- app_assoc. reflexivity. }
  cbn [In] in H. decompose [or] H; clear H; try contradiction; subst f; apply once_keeps; try assumption; try apply A; try apply B; intros d Hd.
  - apply u8_u16_within. exact Hd.
  - apply u8_u16_within. exact Hd.
  - apply u8_u32_within. exact Hd.
  - apply u8_u32_within. exact Hd.
Qed.
Theorem C30_growing : forall g f old src, granted g ->
  In f [u16BE_u8 g; u32LE_u8 g; u32BE_u8 g; u32LE_u16LE g; u32LE_u16BE g; u32BE_u16LE g; u32BE_u16BE g] ->
  keeps old (f old src).
Proof.
  intros g f old src G H. cbn [In] in H. decompose [or] H; clear H; try contradiction; subst f.
  - unfold u16BE_u8. destruct (u16_u8_writes g bswap16 false old src G) as [E|[(t & E & [->|[D _]]) _]]; [| |discriminate]; rewrite E; cbn; eauto.
  - unfold u32LE_u8. destruct (u32_u8_grow g same old src G) as [E|[E _]]; rewrite E; cbn; eauto.
  - unfold u32BE_u8. destruct (u32_u8_grow g bswap32 old src G) as [E|[E _]]; rewrite E; cbn; eauto.
  - unfold u32LE_u16LE. destruct (u32_u16_grow g same same to8 qmark old src G) as [E|[E _]]; rewrite E; cbn; eauto.
  - unfold u32LE_u16BE. destruct (u32_u16_grow g same bswap16 to16 qmark old src G) as [E|[E _]]; rewrite E; cbn; eauto.
  - unfold u32BE_u16LE. destruct (u32_u16_grow g bswap32 same to16 qmark old src G) as [E|[E _]]; rewrite E; cbn; eauto.
  - unfold u32BE_u16BE. destruct (u32_u16_grow g bswap32 bswap16 to16 (bswap16 qmark) old src G) as [E|[E _]]; rewrite E; cbn; eauto.
Qed.
Theorem C30_u16LE_u8_partial : forall g old src, granted g ->
  match u16LE_u8 g old src with
  | Done t => exists l, t = old ++ l
  | Failed t => t = old \/ t = []
  | Overrun => False
  end.
Proof.
  intros g old src G. unfold u16LE_u8. destruct (u16_u8_writes g same true old src G) as [E|[(t & E & H) _]]; rewrite E; [eauto|tauto].
Qed.
(** UTF-16 LE to UTF-8 clears the destination when memory runs out half way. *)
Theorem C30_u16LE_u8_refuted : exists g old src, granted g /\ old <> [] /\ u16LE_u8 g old src = Failed [].
Proof. exists nomem, [120], [8364]. split; [exact nomem_ok|]. split; [discriminate|]. vm_compute. reflexivity. Qed.
(** Broken input: lone continuation, cut off sequence, value above U+10FFFF. *)
Example C30_case :
  u8_u16LE exact [120] [128; 65; 240; 159; 152] = Done [120; 63; 65; 63]
  /\ u32LE_u8 exact [120] [0x80000000] = Done [120; 63]
  /\ u16BE_u8 nomem [120] [44064] = Failed [120]
  /\ u16LE_u8 exact [] [0xD800; 0xDC00; 0xD800; 65] = Done [240; 144; 128; 128; 63; 65].
Proof. vm_compute. auto. Qed.

(** ** C76: big endian output is the swapped little endian output, for any input *)
Theorem C76_u8_u16BE_swaps : forall g old src, granted g ->
  match u8_u16LE g old src with
  | Done t => exists l, t = old ++ l /\ u8_u16BE g old src = Done (old ++ map bswap16 l)
  | _ => u8_u16BE g old src = Failed old
  end.
Proof.
  intros g old src G. unfold u8_u16LE, u8_u16BE, once. destruct src as [|u r].
  - exists []. cbn. rewrite app_nil_r. split; reflexivity.
  - destruct (g 0%nat (length old + length (u :: r))%nat) as [c|] eqn:E; [|reflexivity]. apply G in E.
    destruct (u8_u16_both bswap16 (length (u :: r)) (u :: r) old c old c (le_n _) E E) as (l & b & E1 & E2 & L).
    rewrite E1, E2. unfold size_ok in L. destruct b.
    + rewrite !put_ok by (cbn [out cap]; rewrite app_length, ?map_length; lia). cbn [out].
      exists (l ++ [qmark]). rewrite map_app, !app_assoc. split; reflexivity.
    + cbn [out]. exists l. split; reflexivity.
Qed.
Theorem C76_u16BE_u32BE_swaps : forall g old src, granted g -> plenty g -> exists l,
  u16BE_u32LE g old src = Done (old ++ l) /\ u16BE_u32BE g old src = Done (old ++ map bswap32 l).
Proof.
  intros g old src G P. unfold u16BE_u32LE, u16BE_u32BE.
  rewrite (u16_u32_once g bswap16 same old src qmark G P eq_refl), (u16_u32_once g bswap16 bswap32 old src (bswap32 qmark) G P eq_refl).
  exists (fin32 (p16_32 0 (map bswap16 src))). unfold same. rewrite map_id. split; reflexivity.
Qed.
Theorem C76_u32BE_u16BE_swaps : forall g old src, granted g -> plenty g -> exists l,
  u32BE_u16LE g old src = Done (old ++ l) /\ u32BE_u16BE g old src = Done (old ++ map bswap16 l).
Proof.
  intros g old src G P. unfold u32BE_u16LE, u32BE_u16BE.
  destruct (u32_u16_grow g bswap32 same to16 qmark old src G) as [E|[_ NP]]; [|destruct (NP P)].
  destruct (u32_u16_grow g bswap32 bswap16 to16 (bswap16 qmark) old src G) as [E'|[_ NP]]; [|destruct (NP P)].
  rewrite E, E'. exists (flat_map (fun u => w32_16 same to16 qmark (bswap32 u)) src). split; [reflexivity|].
  rewrite map_flat. do 2 f_equal. apply flat_map_ext. intros u. unfold w32_16.
  repeat match goal with |- context [if ?b then _ else _] => destruct b end; reflexivity.
Qed.
Theorem C76_endian_exact : forall g sw old src, granted g -> plenty g -> endian g sw old src = Done (old ++ map sw src).
Proof.
  intros g sw old src G P. destruct src as [|u r] eqn:S; [cbn; rewrite app_nil_r; reflexivity|]. rewrite <- S.
  unfold endian. apply once_text; [assumption|assumption|rewrite S; discriminate|]. clear. intros c. revert old.
  induction src as [|u r IH]; intros old H; cbn [endian_loop map].
  - rewrite app_nil_r. reflexivity.
  - cbn [length] in H. rewrite put_ok by (cbn [out cap]; lia). cbn [out cap].
    rewrite IH by (rewrite app_length; cbn [length]; lia). rewrite <- app_assoc. reflexivity.
Qed.
Theorem C76_endian_involutive : forall g h text, granted g -> plenty g -> granted h -> plenty h ->
  Forall (fun u => 0 <= u < 65536) text ->
  exists mid, endian g bswap16 [] text = Done mid /\ endian h bswap16 [] mid = Done text.
Proof.
  intros g h text G P G' P' F. exists (map bswap16 text). rewrite !C76_endian_exact by assumption. split; [reflexivity|].
  cbn [app]. rewrite (swap16_units text F). f_equal. apply read16_units. exact F.
Qed.
(** Two places write '?' without swapping: U+3F000000 in place of '?'. *)
Theorem C76_u8_u32BE_refuted : exists src l, u8_u32LE exact [] src = Done l
  /\ u8_u32BE exact [] src <> Done (map bswap32 l) /\ u8_u32BE exact [] src = Done [63].
Proof. exists [226], [63]. split; [reflexivity|]. split; [vm_compute; discriminate|reflexivity]. Qed.
Theorem C76_u32LE_u16BE_refuted : exists src, u32LE_u16LE exact [] src = Done [63]
  /\ u32LE_u16BE exact [] src = Done [63] /\ bswap16 63 <> 63.
Proof. exists [0x110000]. split; [reflexivity|]. split; [reflexivity|vm_compute; discriminate]. Qed.
Example C76_case : u8_u16LE exact [] [195; 169; 128] = Done [233; 63] /\ u8_u16BE exact [] [195; 169; 128] = Done [59648; 16128].
Proof. vm_compute. auto. Qed.

Print Assumptions C26_u8_u16LE.
Print Assumptions C26_u8_u16BE.
Print Assumptions C27_u16LE_u8_exact.
Print Assumptions C27_u16BE_u8_exact.
Print Assumptions C27_u16_u8_partial.
Print Assumptions C27_u16_u8_refuted.
Print Assumptions C28_u32LE_u16BE.
Print Assumptions C28_u32BE_u16LE.
Print Assumptions C28_u32BE_u16BE.
Print Assumptions C28_u32LE_u16LE_exact.
Print Assumptions C28_u32LE_u16LE_partial.
Print Assumptions C28_u32LE_u16LE_refuted.
Print Assumptions C29_u32LE_u8.
Print Assumptions C29_u32BE_u8.
Print Assumptions C29_u8_u32LE.
Print Assumptions C29_u8_u32BE.
Print Assumptions C29_round_trip_partial.
Print Assumptions C29_round_trip_refuted.
Print Assumptions C75_u16LE_u32LE_exact.
Print Assumptions C75_u16BE_u32LE_exact.
Print Assumptions C75_u16BE_u32BE_exact.
Print Assumptions C75_u16_u32_partial.
Print Assumptions C75_u16_u32_refuted.
Print Assumptions C30_reserved_once.
Print Assumptions C30_growing.
Print Assumptions C30_u16LE_u8_partial.
Print Assumptions C30_u16LE_u8_refuted.
Print Assumptions C76_u8_u16BE_swaps.
Print Assumptions C76_u16BE_u32BE_swaps.
Print Assumptions C76_u32BE_u16BE_swaps.
Print Assumptions C76_endian_exact.
Print Assumptions C76_endian_involutive.
Print Assumptions C76_u8_u32BE_refuted.
Print Assumptions C76_u32LE_u16BE_refuted.
