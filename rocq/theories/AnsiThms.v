(** * C128, C129: conversions between ANSI code pages and UTF-16 *)

From Coq Require Import ZArith List Lia Bool.
From Verif Require Import AnsiModel.
Import ListNotations.
Local Open Scope Z_scope.

(** ** The contract of what is outside *)

(** [LockBuffer] gives at least what was asked for, and no machine has 2^62
    characters. *)
Definition lock_ok (lock : nat -> Z -> option Z) : Prop :=
  forall k n c, lock k n = Some c -> n <= c < 2 ^ 62.

(** A call of the system that succeeds on some text gives some text, and one
    that fails sets an error. *)
Definition sys_ok (f : Z -> list Z -> sys) : Prop :=
  forall p w, w <> [] ->
  match f p w with Text b => b <> [] | Fault e => e <> 0 end.

(** What a converter of [src] into [d] owes its caller: the text of [src] in
    the encoding of [d] behind what [d] had, or an error and [d] as it was. *)
Definition owes (f : Z -> list Z -> sys) (p : Z) (src : list Z) (d : str)
    (h : hres) (d' : str) : Prop :=
  match h with
  | Sok => page d' = page d /\
           (src = [] /\ txt d' = txt d \/
            exists b, f p src = Text b /\ txt d' = txt d ++ b)
  | _ => d' = d
  end.

(** ** Lemmas *)

Lemma zlen_nonneg l : 0 <= zlen l.
Proof. unfold zlen; lia. Qed.

Lemma zlen_nil l : zlen l = 0 <-> l = [].
Proof. unfold zlen; destruct l; cbn; split; intros; auto; try lia; discriminate. Qed.

Lemma zlen_app a b : zlen (a ++ b) = zlen a + zlen b.
Proof. unfold zlen; rewrite app_length; lia. Qed.

Lemma first_old (d : str) l : unlock (txt d ++ l) (zlen (txt d) + 0) d = d.
Proof.
  unfold unlock, zlen. rewrite Z.add_0_r, Nat2Z.id.
  rewrite firstn_app, Nat.sub_diag, firstn_all, app_nil_r. destruct d; auto.
Qed.

Lemma first_all (d : str) l :
  unlock (txt d ++ l) (zlen (txt d) + zlen l) d = Str (txt d ++ l) (page d).
Proof.
  unfold unlock, zlen. rewrite <- Nat2Z.inj_add, Nat2Z.id, <- app_length, firstn_all. auto.
Qed.

Section Facts.
Variable enc : Z -> list Z -> sys.
Variable junk : list Z -> Z -> list Z.
Variable lock : nat -> Z -> option Z.
Variable size_max : Z.
Hypothesis Hl : lock_ok lock.
Hypothesis He : sys_ok enc.

(** One turn of the loop, by cases. *)
Lemma turn fuel k src d want h d' :
  src <> [] -> zlen (txt d) < want ->
  grow enc junk lock size_max (S fuel) k src d want = Some (h, d') ->
  (h = Eoom /\ d' = d /\ (size_max <= want \/ lock k want = None)) \/
  (exists cap, lock k want = Some cap /\
     ((exists b, enc (page d) src = Text b /\ h = Sok /\
         d' = Str (txt d ++ b) (page d) /\ zlen (txt d ++ b) <= cap) \/
      (exists e, enc (page d) src = Fault e /\ h = Status e /\ d' = d) \/
      (((exists b, enc (page d) src = Text b /\
          (cap < zlen (txt d) + zlen b \/ int_max < zlen b)) \/
        enc (page d) src = Fault insufficient) /\
       grow enc junk lock size_max fuel (S k) src d (cap * 2) = Some (h, d')))).
Proof.
  intros Hs Hw H. cbn [grow] in H.
  destruct (size_max <=? want) eqn:E1.
  - inversion H; subst. left. apply Z.leb_le in E1. auto.
  - destruct (lock k want) as [cap|] eqn:E2.
    2: { inversion H; subst. left; auto. }
    right. exists cap. split; auto.
    pose proof (Hl _ _ _ E2) as Hc. pose proof (zlen_nonneg (txt d)).
    assert (Hm : (cap * 2) mod u64 = cap * 2).
    { apply Z.mod_small. unfold u64. lia. }
    rewrite Hm in H.
    pose proof (He (page d) src Hs) as He'.
    set (out := if int_max <? cap - zlen (txt d) then int_max else cap - zlen (txt d)) in *.
    assert (Ho : 0 < out <= cap - zlen (txt d) /\ out <= int_max /\
                 (out = cap - zlen (txt d) \/ out = int_max)).
    { unfold out. clear H. assert (0 < int_max) by (unfold int_max; lia).
      destruct (int_max <? cap - zlen (txt d)) eqn:E3;
        [apply Z.ltb_lt in E3|apply Z.ltb_ge in E3]; clear out; lia. }
    clearbody out.
    unfold call in H. destruct (enc (page d) src) as [b|e] eqn:E4.
    + destruct (out =? 0) eqn:E5; [apply Z.eqb_eq in E5; lia|].
      destruct (zlen b <=? out) eqn:E6; cbn [after last_error] in H.
      * apply Z.leb_le in E6.
        assert (zlen b <> 0) by (intros E; apply zlen_nil in E; auto).
        destruct (zlen b =? 0) eqn:E7; [apply Z.eqb_eq in E7; lia|].
        cbn [negb] in H. inversion H; subst. left. exists b.
        rewrite first_all, zlen_app. repeat split; auto; lia.
      * apply Z.leb_gt in E6. rewrite first_old in H. cbn in H.
        right; right. split.
        -- left. exists b. split; auto. destruct Ho as (? & ? & [?|?]); lia.
        -- exact H.
    + cbn [after last_error] in H. rewrite first_old in H. cbn [negb Z.eqb] in H.
      destruct (e =? insufficient) eqn:E5; cbn [negb] in H.
      * apply Z.eqb_eq in E5; subst e. right; right. split; auto.
      * unfold hstatus in H. destruct (e =? 0) eqn:E6; [apply Z.eqb_eq in E6; lia|].
        inversion H; subst. right; left. exists e; auto.
Qed.

Lemma grow_owes fuel : forall k src d want h d',
  src <> [] -> zlen (txt d) < want ->
  grow enc junk lock size_max fuel k src d want = Some (h, d') ->
  owes enc (page d) src d h d' /\
  (h = Sok -> exists k n cap, lock k n = Some cap /\ zlen (txt d') <= cap).
Proof.
  induction fuel; intros k src d want h d' Hs Hw H; [discriminate|].
  apply turn in H; auto.
  destruct H as [(-> & -> & _)|(cap & E & [(b & Eb & -> & -> & Hb)|[(e & Ee & -> & ->)|(_ & H)]])].
  - cbn; split; auto; discriminate.
  - cbn; split; [split; auto; right; eauto|]. intros _. exists k, want, cap. auto.
  - cbn; split; auto; discriminate.
  - apply IHfuel in H; auto.
    pose proof (Hl _ _ _ E). pose proof (zlen_nonneg (txt d)). lia.
Qed.

Lemma grow_ends fuel : forall k src d want,
  src <> [] -> zlen (txt d) < want -> 2 ^ 62 <= want * 2 ^ Z.of_nat fuel ->
  grow enc junk lock size_max (S fuel) k src d want <> None.
Proof.
  induction fuel as [|fuel IH]; intros k src d want Hs Hw Hp; cbn [grow];
  (destruct (size_max <=? want) eqn:E1; [discriminate|]);
  (destruct (lock k want) as [cap|] eqn:E2; [|discriminate]);
  pose proof (Hl _ _ _ E2) as Hc; pose proof (zlen_nonneg (txt d)).
  - change (2 ^ Z.of_nat 0) with 1 in Hp. lia.
  - assert (Hm : (cap * 2) mod u64 = cap * 2).
    { apply Z.mod_small. unfold u64. lia. }
    rewrite Hm.
    destruct (call _ _ _ _) as [b|e j|n] eqn:Ec; cbn [after last_error].
    1,3: destruct (negb _); discriminate.
    cbn [negb Z.eqb]. destruct (negb (e =? insufficient)) eqn:E3; [discriminate|].
    rewrite first_old. apply IH; auto; try lia.
    rewrite Nat2Z.inj_succ in Hp. rewrite Z.pow_succ_r in Hp by lia.
    assert (0 < 2 ^ Z.of_nat fuel) by (apply Z.pow_pos_nonneg; lia).
    nia.
Qed.

Lemma grow_fits fuel : forall k src d want b h d',
  src <> [] -> zlen (txt d) < want ->
  enc (page d) src = Text b -> zlen b <= int_max ->
  want <= 2 * (zlen (txt d) + Z.max (zlen b) (zlen src)) ->
  2 * (zlen (txt d) + Z.max (zlen b) (zlen src)) < size_max ->
  (forall k n, n <= 2 * (zlen (txt d) + Z.max (zlen b) (zlen src)) -> lock k n <> None) ->
  grow enc junk lock size_max fuel k src d want = Some (h, d') -> h = Sok.
Proof.
  induction fuel; intros k src d want b h d' Hs Hw Eb Hb Hm Hz Hk H; [discriminate|].
  apply turn in H; auto.
  destruct H as [(-> & -> & [?|?])|(cap & E & [(b' & Eb' & -> & -> & Hb')|[(e & Ee & -> & ->)|(Hr & H)]])].
  - lia.
  - exfalso; eapply Hk; eauto.
  - auto.
  - congruence.
  - destruct Hr as [(b' & Eb' & Hr)|Hr]; [|congruence].
    assert (b' = b) by congruence; subst b'.
    pose proof (Hl _ _ _ E). pose proof (zlen_nonneg (txt d)).
    destruct Hr as [Hr|Hr]; [|lia]. apply (IHfuel (S k) src d (cap * 2) b h d'); auto; try lia.
Qed.

End Facts.

(** ** C128: UTF-16 to ANSI *)

Definition small (src : list Z) (d : str) : Prop :=
  zlen (txt d) + zlen src * 2 < u64.

Lemma want_small src d : small src d ->
  (zlen (txt d) + zlen src * 2) mod u64 = zlen (txt d) + zlen src * 2.
Proof.
  intros H. apply Z.mod_small. pose proof (zlen_nonneg src).
  pose proof (zlen_nonneg (txt d)). unfold small in *. lia.
Qed.

Lemma some_len src : src <> [] -> 0 < zlen src.
Proof.
  intros H. pose proof (zlen_nonneg src).
  assert (zlen src <> 0) by (intros E; apply zlen_nil in E; auto). lia.
Qed.

(** Success means the whole text was appended in the code page of the
    destination; a failure leaves the destination alone; the text fits the
    buffer it was written to. *)
Theorem C128_owes enc junk lock size_max fuel src d h d' :
  lock_ok lock -> sys_ok enc -> small src d ->
  to_ansi enc junk lock size_max fuel src (Some d) = Some (h, Some d') ->
  owes enc (page d) src d h d' /\
  (h = Sok -> src <> [] ->
   exists k n cap, lock k n = Some cap /\ zlen (txt d') <= cap).
Proof.
  intros Hl He Hd. unfold to_ansi.
  destruct (zlen src =? 0) eqn:E1.
  { intros H; inversion H; subst. apply Z.eqb_eq, zlen_nil in E1. cbn.
    split; [auto|]. intros _ []; auto. }
  apply Z.eqb_neq in E1. assert (Hs : src <> []) by (intros E; apply E1, zlen_nil; auto).
  destruct (int_max <? zlen src) eqn:E2.
  { intros H; inversion H; subst. cbn. split; auto. discriminate. }
  rewrite want_small by auto.
  destruct (grow _ _ _ _ _ _ _ _ _) as [[h0 d0]|] eqn:E; [|discriminate].
  intros H; inversion H; subst.
  pose proof (some_len _ Hs).
  apply grow_owes in E; auto; [|lia]. destruct E as [E1' E2']. split; auto.
Qed.

(** The loop ends: sixty-two turns are always enough. *)
Theorem C128_ends enc junk lock size_max src d :
  lock_ok lock -> sys_ok enc -> small src d ->
  exists h d', to_ansi enc junk lock size_max 62 src (Some d) = Some (h, Some d').
Proof.
  intros Hl He Hd. unfold to_ansi.
  destruct (zlen src =? 0) eqn:E1; [eauto|].
  destruct (int_max <? zlen src); [eauto|].
  apply Z.eqb_neq in E1. assert (Hs : src <> []) by (intros E; apply E1, zlen_nil; auto).
  rewrite want_small by auto. pose proof (some_len _ Hs). pose proof (zlen_nonneg (txt d)).
  assert (G : grow enc junk lock size_max 62 0 src d (zlen (txt d) + zlen src * 2) <> None).
  { apply (grow_ends enc junk lock size_max Hl 61); auto; [lia|].
    change (2 ^ 62) with (2 * 2 ^ Z.of_nat 61).
    assert (0 < 2 ^ Z.of_nat 61) by (apply Z.pow_pos_nonneg; lia). nia. }
  destruct (grow _ _ _ _ _ _ _ _ _) as [[h0 d0]|]; [eauto|congruence].
Qed.

(** It does not fail without need: if the code page has a text for the source
    and there is memory for twice the result, the conversion succeeds. *)
Theorem C128_fits enc junk lock size_max fuel src d b h d' :
  lock_ok lock -> sys_ok enc -> small src d ->
  enc (page d) src = Text b -> zlen src <= int_max -> zlen b <= int_max ->
  2 * (zlen (txt d) + Z.max (zlen b) (zlen src)) < size_max ->
  (forall k n, n <= 2 * (zlen (txt d) + Z.max (zlen b) (zlen src)) -> lock k n <> None) ->
  to_ansi enc junk lock size_max fuel src (Some d) = Some (h, Some d') ->
  h = Sok.
Proof.
  intros Hl He Hd Eb Hs1 Hb Hz Hk. unfold to_ansi.
  destruct (zlen src =? 0) eqn:E1; [congruence|].
  destruct (int_max <? zlen src) eqn:E2; [apply Z.ltb_lt in E2; lia|].
  apply Z.eqb_neq in E1. assert (Hs : src <> []) by (intros E; apply E1, zlen_nil; auto).
  rewrite want_small by auto. pose proof (some_len _ Hs). pose proof (zlen_nonneg (txt d)).
  destruct (grow _ _ _ _ _ _ _ _ _) as [[h0 d0]|] eqn:E; [|discriminate].
  intros H1; inversion H1; subst.
  eapply grow_fits with (b := b); eauto; lia.
Qed.

(** The other Unicode forms: what is appended is the text of their UTF-16
    form, and an error on the way leaves the destination alone. *)
Theorem C128_via enc junk lock size_max fuel hu w d h d' :
  lock_ok lock -> sys_ok enc -> small w d ->
  to_ansi_via enc junk lock size_max fuel (hu, w) (Some d) = Some (h, Some d') ->
  (hu <> Sok -> h = hu /\ d' = d) /\
  (hu = Sok -> owes enc (page d) w d h d').
Proof.
  intros Hl He Hd. unfold to_ansi_via.
  destruct (bad hu) eqn:E.
  - intros H; inversion H; subst. split; auto. intros ->; discriminate.
  - intros H. split; [intros F; destruct hu; cbn in E; congruence|].
    intros _. eapply C128_owes; eauto.
Qed.

(** A code page in which a character takes one byte or three, and a letter
    that it does not have and that fails. *)
Definition toy_enc (p : Z) (w : list Z) : sys :=
  if p =? 0 then Fault 87
  else Text (flat_map (fun c => if c <? 128 then [c] else [255; c / 256; c mod 256]) w).

Definition toy_junk (w : list Z) (n : Z) : list Z := [1; 2].

Definition toy_lock (k : nat) (n : Z) : option Z :=
  if n <? 4096 then Some (n + 3) else None.

Lemma toy_lock_ok : lock_ok toy_lock.
Proof.
  intros k n c. unfold toy_lock. destruct (n <? 4096) eqn:E; [|discriminate].
  apply Z.ltb_lt in E. intros H; inversion H; subst. lia.
Qed.

Lemma toy_enc_ok : sys_ok toy_enc.
Proof.
  intros p w Hw. unfold toy_enc. destruct (p =? 0); [lia|].
  destruct w as [|c w]; [congruence|]. cbn. destruct (c <? 128); discriminate.
Qed.

(** Four characters of three bytes each do not fit twice their number plus
    three: the second turn does it. *)
Example C128_second_turn :
  to_ansi toy_enc toy_junk toy_lock 100000 62 [300; 301; 302; 303] (Some (Str [65] 936))
  = Some (Sok, Some (Str [65; 255; 1; 44; 255; 1; 45; 255; 1; 46; 255; 1; 47] 936)) /\
  to_ansi toy_enc toy_junk toy_lock 100000 1 [300; 301; 302; 303] (Some (Str [65] 936)) = None /\
  lock_ok toy_lock /\ sys_ok toy_enc /\ small [300; 301; 302; 303] (Str [65] 936).
Proof.
  split; [reflexivity|]. split; [reflexivity|].
  split; [apply toy_lock_ok|]. split; [apply toy_enc_ok|]. unfold small, u64; cbn; lia.
Qed.

(** A code page the system does not have: the error comes back and what the
    call left in the buffer is not seen. *)
Example C128_failure :
  to_ansi toy_enc toy_junk toy_lock 100000 62 [300; 301] (Some (Str [65] 0))
  = Some (Status 87, Some (Str [65] 0)).
Proof. reflexivity. Qed.

(** ** C129: ANSI to UTF-16, and ANSI to ANSI *)

(** When the system converts the text, within as many characters as the source
    has bytes, the text is appended. *)
Theorem C129_converts_partial dec junk lock src d w h d' :
  txt src <> [] -> zlen (txt src) <= int_max ->
  dec (page src) (txt src) = Text w -> zlen w <= zlen (txt src) ->
  to_wide dec junk lock src (Some d) = (h, Some d') ->
  owes dec (page src) (txt src) d h d' /\ (h <> Sok -> h = Eoom).
Proof.
  intros Hs Hm Ew Hw. unfold to_wide.
  pose proof (some_len _ Hs).
  destruct (zlen (txt src) =? 0) eqn:E1; [apply Z.eqb_eq in E1; lia|].
  destruct (int_max <? zlen (txt src)) eqn:E2; [apply Z.ltb_lt in E2; lia|].
  destruct (lock _ _) as [cap|].
  2: { intros H1; inversion H1; subst. cbn. auto. }
  unfold call. rewrite Ew, E1.
  destruct (zlen w <=? zlen (txt src)) eqn:E3; [|apply Z.leb_gt in E3; lia].
  cbn [after]. rewrite first_all. intros H1; inversion H1; subst. cbn.
  split; [|congruence]. split; auto. right; eauto.
Qed.

(** A failure of the system is never reported: for every text that cannot be
    converted the answer is S_OK and nothing is appended. *)
Theorem C129_silent dec junk lock src d e :
  txt src <> [] -> zlen (txt src) <= int_max ->
  dec (page src) (txt src) = Fault e ->
  lock 0%nat (zlen (txt d) + zlen (txt src)) <> None ->
  to_wide dec junk lock src (Some d) = (Sok, Some d).
Proof.
  intros Hs Hm Ew Hk. unfold to_wide. pose proof (some_len _ Hs).
  destruct (zlen (txt src) =? 0) eqn:E1; [apply Z.eqb_eq in E1; lia|].
  destruct (int_max <? zlen (txt src)) eqn:E2; [apply Z.ltb_lt in E2; lia|].
  destruct (lock _ _) as [cap|]; [|congruence].
  unfold call. rewrite Ew. cbn [after]. rewrite first_old. auto.
Qed.

(** So the duty of a converter is not met. *)
Theorem C129_reports_refuted :
  ~ (forall dec junk lock src d h d',
       lock_ok lock -> sys_ok dec ->
       to_wide dec junk lock src (Some d) = (h, Some d') ->
       owes dec (page src) (txt src) d h d').
Proof.
  intros H.
  specialize (H toy_enc toy_junk toy_lock (Str [200; 201] 0) (Str [65] 0) Sok (Str [65] 0)
                toy_lock_ok toy_enc_ok eq_refl).
  cbn in H. destruct H as (_ & [(H & _)|(b & H & _)]); discriminate.
Qed.

(** The same for every form reached through UTF-16, whatever the second step
    is, as long as it appends nothing for an empty text. *)
Theorem C129_via_silent dec junk lock uni src d e :
  txt src <> [] -> zlen (txt src) <= int_max ->
  dec (page src) (txt src) = Fault e ->
  lock 0%nat (zlen (txt src)) <> None ->
  uni [] d = (Sok, d) ->
  from_ansi_via dec junk lock uni src (Some d) = (Sok, Some d).
Proof.
  intros Hs Hm Ew Hk Hu. unfold from_ansi_via. pose proof (some_len _ Hs).
  destruct (zlen (txt src) =? 0) eqn:E1; [apply Z.eqb_eq in E1; lia|].
  rewrite (C129_silent dec junk lock src (Str [] 0) e); auto.
  cbn. rewrite Hu. auto.
Qed.

(** When the system does convert it, the second step gets the text and its
    answer is the answer; without memory, or for a text that is too long, the
    error comes back and the destination is left alone. *)
Theorem C129_via dec junk lock uni src d w h d' :
  txt src <> [] -> dec (page src) (txt src) = Text w -> zlen w <= zlen (txt src) ->
  from_ansi_via dec junk lock uni src (Some d) = (h, Some d') ->
  (int_max < zlen (txt src) -> h = Eunexpected /\ d' = d) /\
  (zlen (txt src) <= int_max -> lock 0%nat (zlen (txt src)) = None -> h = Eoom /\ d' = d) /\
  (zlen (txt src) <= int_max -> lock 0%nat (zlen (txt src)) <> None -> uni w d = (h, d')).
Proof.
  intros Hs Ew Hw. unfold from_ansi_via, to_wide. pose proof (some_len _ Hs).
  destruct (zlen (txt src) =? 0) eqn:E1; [apply Z.eqb_eq in E1; lia|].
  destruct (int_max <? zlen (txt src)) eqn:E2.
  - apply Z.ltb_lt in E2. cbn. intros H1; inversion H1; subst. repeat split; auto; lia.
  - apply Z.ltb_ge in E2. cbn [txt]. change (zlen [] + zlen (txt src)) with (zlen (txt src)).
    destruct (lock 0%nat (zlen (txt src))) as [cap|] eqn:El.
    + unfold call. rewrite Ew, E1.
      destruct (zlen w <=? zlen (txt src)) eqn:E3; [|apply Z.leb_gt in E3; lia].
      cbn [after]. pose proof (first_all (Str [] 0) w) as F. cbn [txt] in F. rewrite F. cbn [txt bad app].
      destruct (uni w d) as [h1 d1] eqn:Eu. intros H1; inversion H1; subst.
      split; [lia|]. split; [congruence|auto].
    + cbn. intros H1; inversion H1; subst. split; [lia|]. split; [auto|congruence].
Qed.

(** What an ANSI string says, read in its code page. *)
Definition says (dec : Z -> list Z -> sys) (s : str) : sys := dec (page s) (txt s).

(** Code pages that read text piece by piece: what two pieces say together is
    what they say one after the other. *)
Definition piecewise (dec : Z -> list Z -> sys) : Prop :=
  forall p a b wa wb, dec p a = Text wa -> dec p b = Text wb ->
  dec p (a ++ b) = Text (wa ++ wb).

(** Appending an ANSI string to an ANSI string of the same code page appends
    what it says; so does appending one to an empty string, which then takes
    over the code page. *)
Theorem C129_pages_partial dec lock src d h d' ws wd :
  piecewise dec -> dec (page src) [] = Text [] -> dec (page d) [] = Text [] ->
  says dec src = Text ws -> says dec d = Text wd ->
  page src = page d \/ txt d = [] ->
  ansi_to_ansi lock src (Some d) = (h, Some d') ->
  match h with Sok => says dec d' = Text (wd ++ ws) | _ => d' = d end.
Proof.
  unfold says. intros Hp H0 H0' Es Ed Hc. unfold ansi_to_ansi, view_to_ansi.
  destruct (zlen (txt src) =? 0) eqn:E1.
  { apply Z.eqb_eq, zlen_nil in E1. intros H; inversion H; subst.
    rewrite E1, H0 in Es. inversion Es. rewrite app_nil_r. auto. }
  destruct (zlen (txt d) =? 0) eqn:E2.
  { apply Z.eqb_eq, zlen_nil in E2. intros H; inversion H; subst.
    rewrite E2, H0' in Ed. inversion Ed. auto. }
  apply Z.eqb_neq in E2.
  destruct Hc as [Hc|Hc]; [|rewrite Hc in E2; cbn in E2; congruence].
  destruct (lock _ _).
  - intros H; inversion H; subst. cbn. rewrite Hc in Es. auto.
  - intros H; inversion H; subst. auto.
Qed.

(** Two code pages of one byte a character: 1252 reads 192 as the letter 192,
    1251 as the letter 1040. *)
Definition two_pages (p : Z) (b : list Z) : sys :=
  Text (map (fun c => if c <? 128 then c else if p =? 1251 then c + 848 else c) b).

Lemma two_pages_piecewise : piecewise two_pages.
Proof.
  intros p a b wa wb Ha Hb. unfold two_pages in *. inversion Ha; inversion Hb.
  rewrite map_app. auto.
Qed.

(** With different code pages the bytes are copied as they are and say
    something else afterwards. *)
Theorem C129_pages_refuted :
  ~ (forall dec lock src d h d' ws wd,
       piecewise dec -> lock_ok lock -> (forall p, dec p [] = Text []) ->
       says dec src = Text ws -> says dec d = Text wd ->
       ansi_to_ansi lock src (Some d) = (h, Some d') ->
       match h with Sok => says dec d' = Text (wd ++ ws) | _ => d' = d end).
Proof.
  intros H.
  specialize (H two_pages toy_lock (Str [192] 1251) (Str [65] 1252) Sok
                (Str [65; 192] 1252) [1040] [65]
                two_pages_piecewise toy_lock_ok (fun _ => eq_refl) eq_refl eq_refl eq_refl).
  discriminate.
Qed.

(** A view is copied byte for byte even into an empty string. *)
Theorem C129_view_refuted :
  ~ (forall dec lock src d h d' ws wd,
       piecewise dec -> lock_ok lock -> (forall p, dec p [] = Text []) ->
       txt d = [] ->
       says dec src = Text ws -> says dec d = Text wd ->
       view_to_ansi lock src (Some d) = (h, Some d') ->
       match h with Sok => says dec d' = Text (wd ++ ws) | _ => d' = d end).
Proof.
  intros H.
  specialize (H two_pages toy_lock (Str [192] 1251) (Str [] 1252) Sok
                (Str [192] 1252) [1040] []
                two_pages_piecewise toy_lock_ok (fun _ => eq_refl) eq_refl eq_refl eq_refl eq_refl).
  discriminate.
Qed.

Example C129_same_page :
  ansi_to_ansi toy_lock (Str [192] 1251) (Some (Str [65] 1251))
  = (Sok, Some (Str [65; 192] 1251)) /\
  says two_pages (Str [65; 192] 1251) = Text ([65] ++ [1040]) /\
  ansi_to_ansi toy_lock (Str [192] 1251) (Some (Str [] 1252))
  = (Sok, Some (Str [192] 1251)).
Proof. repeat split. Qed.

Example C129_converted :
  to_wide two_pages toy_junk toy_lock (Str [65; 192] 1251) (Some (Str [7] 0))
  = (Sok, Some (Str [7; 65; 1040] 0)) /\
  from_ansi_via two_pages toy_junk toy_lock (fun w d => (Eoom, Str (txt d ++ w) 5)) (Str [65; 192] 1251) (Some (Str [7] 0))
  = (Eoom, Some (Str [7; 65; 1040] 5)).
Proof. split; reflexivity. Qed.

Print Assumptions C128_owes.
Print Assumptions C128_ends.
Print Assumptions C128_fits.
Print Assumptions C128_via.
Print Assumptions C129_converts_partial.
Print Assumptions C129_silent.
Print Assumptions C129_reports_refuted.
Print Assumptions C129_via.
Print Assumptions C129_via_silent.
Print Assumptions C129_pages_partial.
Print Assumptions C129_pages_refuted.
Print Assumptions C129_view_refuted.
