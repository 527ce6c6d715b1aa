(** Model of the Unicode transcoders in src/YY/Base/Strings/StringTransform.cpp.

    A text is a list of code units, taken as integers (8, 16 or 32 bit, unsigned; the
    machine is little endian).  The destination is the text it holds and, while its
    buffer is locked, the capacity of that buffer; a write behind the capacity is the
    outcome [Overrun].  [LockBuffer] is an oracle: [grant k n] is the capacity of the
    buffer returned by the [k]-th call that has to allocate, asked for [n] units, and
    [None] a failure (null).  String.h:266-344: the old text is kept, a buffer that is
    large enough is returned as it is, [UnlockBuffer] sets the length.
    Where two functions differ only in byte swapping they share one definition, with
    the places that differ as arguments; the instances are at the end.
    Simplification: [_cchSrc * 3] and other sizes do not wrap. *)
From Coq Require Import ZArith Lia Bool List.
Import ListNotations.
Local Open Scope Z_scope.

(** Lines 17-33: [_byteswap_ushort], [_byteswap_ulong]. *)
Definition bswap16 (x : Z) : Z := Z.lor (Z.shiftl (Z.land x 255) 8) (Z.land (Z.shiftr x 8) 255).
Definition bswap32 (x : Z) : Z :=
  Z.lor (Z.shiftl (Z.land x 255) 24)
        (Z.lor (Z.shiftl (Z.land (Z.shiftr x 8) 255) 16)
               (Z.lor (Z.shiftl (Z.land (Z.shiftr x 16) 255) 8) (Z.land (Z.shiftr x 24) 255))).
Definition same (x : Z) : Z := x.

(** Casts. *)
Definition to8 (x : Z) : Z := x mod 256.
Definition to16 (x : Z) : Z := x mod 65536.
Definition to32 (x : Z) : Z := x mod 4294967296.

Definition qmark : Z := 63.

Record dst := mkdst { out : list Z; cap : nat }.
Definition put (u : Z) (d : dst) : option dst :=
  if (length (out d) <? cap d)%nat then Some (mkdst (out d ++ [u]) (cap d)) else None.
Fixpoint puts (us : list Z) (d : dst) : option dst :=
  match us with
  | [] => Some d
  | u :: r => match put u d with Some d' => puts r d' | None => None end
  end.

(** The outcome of a call: [S_OK], [E_OUTOFMEMORY] (each with the text of the destination
    afterwards) or a write behind the buffer. *)
Inductive result := Done (text : list Z) | Failed (text : list Z) | Overrun.

Definition cont (b : Z) : bool := Z.land b 192 =? 128.
Definition low6 (b : Z) : Z := Z.land b 63.

Section Alloc.
Variable grant : nat -> nat -> option nat.

(** The common frame of the functions that reserve once: lines 363-384 and 463-468
    (u8 -> u16 LE), 471-492 and 571-576, 579-600 and 710-715, 718-739 and 849-854.
    [n] is the number of units reserved; [tail] is written when the loop stopped before
    the end of the source. *)
Definition once (loop : dst -> option (dst * bool)) (tail : Z) (n : nat) (old src : list Z) : result :=
  match src with
  | [] => Done old
  | _ =>
      match grant 0 (length old + n) with
      | None => Failed old
      | Some c =>
          match loop (mkdst old c) with
          | None => Overrun
          | Some (d, stopped) =>
              match (if stopped : bool then put tail d else Some d) with
              | None => Overrun
              | Some d => Done (out d)
              end
          end
      end
  end.

(** Lines 386-461 (LE, [sw = same]) and 494-569 (BE, [sw = bswap16]). *)
Fixpoint u8_u16_loop (sw : Z -> Z) (src : list Z) (d : dst) : option (dst * bool) :=
  match src with
  | [] => Some (d, false)
  | b0 :: r0 =>
      if 248 <=? b0 then
        match put (sw qmark) d with Some d => u8_u16_loop sw r0 d | None => None end
      else if 240 <=? b0 then
        match r0 with
        | b1 :: b2 :: b3 :: r =>
            if cont b1 && cont b2 && cont b3 then
              let t := Z.lor (Z.lor (Z.lor (Z.shiftl (Z.land b0 7) 18) (Z.shiftl (low6 b1) 12))
                                    (Z.shiftl (low6 b2) 6)) (low6 b3) in
              let t := to32 (t - 65536) in
              match puts [sw (to16 (Z.shiftr t 10 + 55296)); sw (to16 (Z.land t 1023 + 56320))] d with
              | Some d => u8_u16_loop sw r d
              | None => None
              end
            else match put (sw qmark) d with Some d => u8_u16_loop sw r0 d | None => None end
        | _ => Some (d, true)
        end
      else if 224 <=? b0 then
        match r0 with
        | b1 :: b2 :: r =>
            if cont b1 && cont b2 then
              let t := Z.lor (Z.lor (Z.shiftl (Z.land b0 15) 12) (Z.shiftl (low6 b1) 6)) (low6 b2) in
              match put (sw (to16 t)) d with Some d => u8_u16_loop sw r d | None => None end
            else match put (sw qmark) d with Some d => u8_u16_loop sw r0 d | None => None end
        | _ => Some (d, true)
        end
      else if 192 <=? b0 then
        match r0 with
        | b1 :: r =>
            if cont b1 then
              let t := Z.lor (Z.shiftl (Z.land b0 31) 6) (low6 b1) in
              match put (sw (to16 t)) d with Some d => u8_u16_loop sw r d | None => None end
            else match put (sw qmark) d with Some d => u8_u16_loop sw r0 d | None => None end
        | _ => Some (d, true)
        end
      else if 128 <=? b0 then
        match put (sw qmark) d with Some d => u8_u16_loop sw r0 d | None => None end
      else match put (sw b0) d with Some d => u8_u16_loop sw r0 d | None => None end
  end.

(** Lines 602-708 (LE) and 741-847 (BE).  [q6] is what is written for a 6-byte form with
    a wrong continuation: line 762 forgets to swap it. *)
Fixpoint u8_u32_loop (sw : Z -> Z) (q6 : Z) (src : list Z) (d : dst) : option (dst * bool) :=
  match src with
  | [] => Some (d, false)
  | b0 :: r0 =>
      if 254 <=? b0 then
        match put (sw qmark) d with Some d => u8_u32_loop sw q6 r0 d | None => None end
      else if 252 <=? b0 then
        match r0 with
        | b1 :: b2 :: b3 :: b4 :: b5 :: r =>
            if cont b1 && cont b2 && cont b3 && cont b4 && cont b5 then
              let t := Z.lor (Z.lor (Z.lor (Z.lor (Z.lor (Z.shiftl (Z.land b0 1) 30) (Z.shiftl (low6 b1) 24))
                         (Z.shiftl (low6 b2) 18)) (Z.shiftl (low6 b3) 12)) (Z.shiftl (low6 b4) 6)) (low6 b5) in
              match put (sw (to32 t)) d with Some d => u8_u32_loop sw q6 r d | None => None end
            else match put q6 d with Some d => u8_u32_loop sw q6 r0 d | None => None end
        | _ => Some (d, true)
        end
      else if 248 <=? b0 then
        match r0 with
        | b1 :: b2 :: b3 :: b4 :: r =>
            if cont b1 && cont b2 && cont b3 && cont b4 then
              let t := Z.lor (Z.lor (Z.lor (Z.lor (Z.shiftl (Z.land b0 3) 24) (Z.shiftl (low6 b1) 18))
                         (Z.shiftl (low6 b2) 12)) (Z.shiftl (low6 b3) 6)) (low6 b4) in
              match put (sw (to32 t)) d with Some d => u8_u32_loop sw q6 r d | None => None end
            else match put (sw qmark) d with Some d => u8_u32_loop sw q6 r0 d | None => None end
        | _ => Some (d, true)
        end
      else if 240 <=? b0 then
        match r0 with
        | b1 :: b2 :: b3 :: r =>
            if cont b1 && cont b2 && cont b3 then
              let t := Z.lor (Z.lor (Z.lor (Z.shiftl (Z.land b0 7) 18) (Z.shiftl (low6 b1) 12))
                         (Z.shiftl (low6 b2) 6)) (low6 b3) in
              match put (sw (to32 t)) d with Some d => u8_u32_loop sw q6 r d | None => None end
            else match put (sw qmark) d with Some d => u8_u32_loop sw q6 r0 d | None => None end
        | _ => Some (d, true)
        end
      else if 224 <=? b0 then
        match r0 with
        | b1 :: b2 :: r =>
            if cont b1 && cont b2 then
              let t := Z.lor (Z.lor (Z.shiftl (Z.land b0 15) 12) (Z.shiftl (low6 b1) 6)) (low6 b2) in
              match put (sw (to32 t)) d with Some d => u8_u32_loop sw q6 r d | None => None end
            else match put (sw qmark) d with Some d => u8_u32_loop sw q6 r0 d | None => None end
        | _ => Some (d, true)
        end
      else if 192 <=? b0 then
        match r0 with
        | b1 :: r =>
            if cont b1 then
              let t := Z.lor (Z.shiftl (Z.land b0 31) 6) (low6 b1) in
              match put (sw (to32 t)) d with Some d => u8_u32_loop sw q6 r d | None => None end
            else match put (sw qmark) d with Some d => u8_u32_loop sw q6 r0 d | None => None end
        | _ => Some (d, true)
        end
      else if 128 <=? b0 then
        match put (sw qmark) d with Some d => u8_u32_loop sw q6 r0 d | None => None end
      else match put (sw b0) d with Some d => u8_u32_loop sw q6 r0 d | None => None end
  end.

(** The surrogate pair of [hi] and [lo]: lines 899, 982, 1073, 1192, 1252. *)
Definition pair (hi lo : Z) : Z := to32 (Z.lor (to32 (Z.shiftl (to32 (hi - 55296)) 10)) (to32 (lo - 56320)) + 65536).

(** Lines 975-1005 (LE -> LE), 1183-1215 (BE -> LE), 1243-1275 (BE -> BE): [si] and [so] are
    the swaps of the source and of the destination.  [last] is [_uLastChar]. *)
Fixpoint u16_u32_loop (si so : Z -> Z) (src : list Z) (last : Z) (d : dst) : option (dst * bool) :=
  match src with
  | [] => Some (d, negb (last =? 0))
  | u :: r =>
      let ch := si u in
      if negb (last =? 0) && (56320 <=? ch) && (ch <? 57344) then
        match put (so (pair last ch)) d with Some d => u16_u32_loop si so r 0 d | None => None end
      else
        match (if negb (last =? 0) then put (so qmark) d else Some d) with
        | None => None
        | Some d =>
            if (55296 <=? ch) && (ch <=? 57344) then u16_u32_loop si so r ch d
            else match put (so ch) d with Some d => u16_u32_loop si so r 0 d | None => None end
        end
  end.

(** The functions that write with a check of the capacity before every source unit. *)
Inductive grown := GOver | GFail | GOk (d : dst) (last : Z).
(** Lines 884-892 (and 1321-1329, 1411-1419, ...): [need] units must fit. *)
Definition ensure (k need : nat) (d : dst) : option (nat * dst) :=
  if (cap d <? length (out d) + need)%nat then
    match grant k (length (out d) + need) with
    | None => None
    | Some c => Some (S k, mkdst (out d) c)
    end
  else Some (k, d).

(** Lines 898-901. *)
Definition form4 (ch : Z) : list Z :=
  [to8 (Z.lor (Z.land (Z.shiftr ch 18) 7) 240); to8 (Z.lor (Z.land (Z.shiftr ch 12) 63) 128);
   to8 (Z.lor (Z.land (Z.shiftr ch 6) 63) 128); to8 (Z.lor (Z.land ch 63) 128)].
(** Lines 923-925. *)
Definition form3 (ch : Z) : list Z :=
  [to8 (Z.lor (Z.land (Z.shiftr ch 12) 15) 224); to8 (Z.lor (Z.land (Z.shiftr ch 6) 63) 128);
   to8 (Z.lor (Z.land ch 63) 128)].
(** Lines 918-919. *)
Definition form2 (ch : Z) : list Z :=
  [to8 (Z.lor (Z.land (Z.shiftr ch 6) 31) 192); to8 (Z.lor (Z.land ch 63) 128)].
(** Lines 1358-1362. *)
Definition form5 (ch : Z) : list Z :=
  [to8 (Z.lor (Z.land (Z.shiftr ch 24) 3) 248); to8 (Z.lor (Z.land (Z.shiftr ch 18) 63) 128);
   to8 (Z.lor (Z.land (Z.shiftr ch 12) 63) 128); to8 (Z.lor (Z.land (Z.shiftr ch 6) 63) 128);
   to8 (Z.lor (Z.land ch 63) 128)].
(** Lines 1366-1371 (with 0xF0 in the second byte). *)
Definition form6 (ch : Z) : list Z :=
  [to8 (Z.lor (Z.land (Z.shiftr ch 30) 1) 252); to8 (Z.lor (Z.land (Z.shiftr ch 24) 63) 240);
   to8 (Z.lor (Z.land (Z.shiftr ch 18) 63) 128); to8 (Z.lor (Z.land (Z.shiftr ch 12) 63) 128);
   to8 (Z.lor (Z.land (Z.shiftr ch 6) 63) 128); to8 (Z.lor (Z.land ch 63) 128)].

(** Lines 882-933 (LE) and 1059-1112 (BE). *)
Fixpoint u16_u8_loop (si : Z -> Z) (src : list Z) (last : Z) (k : nat) (d : dst) : grown :=
  match src with
  | [] => GOk d last
  | u :: r =>
      let ch := si u in
      match ensure k 4 d with
      | None => GFail
      | Some (k, d) =>
          if negb (last =? 0) && (56320 <=? ch) && (ch <? 57344) then
            match puts (form4 (pair last ch)) d with Some d => u16_u8_loop si r 0 k d | None => GOver end
          else
            match (if negb (last =? 0) then put qmark d else Some d) with
            | None => GOver
            | Some d =>
                if ch <? 128 then
                  match put (to8 ch) d with Some d => u16_u8_loop si r 0 k d | None => GOver end
                else if ch <? 2048 then
                  match puts (form2 ch) d with Some d => u16_u8_loop si r 0 k d | None => GOver end
                else if (ch <? 55296) || (57344 <? ch) then
                  match puts (form3 ch) d with Some d => u16_u8_loop si r 0 k d | None => GOver end
                else u16_u8_loop si r ch k d
            end
      end
  end.

(** Lines 857-881 and 935-953 (LE, which clears the destination when it runs out of
    memory: [clears]); 1030-1058 and 1114-1127 (BE, which cuts it back to the old length). *)
Definition u16_u8 (si : Z -> Z) (clears : bool) (old src : list Z) : result :=
  match src with
  | [] => Done old
  | _ =>
      match grant 0 (length old + length src * 3) with
      | None => Failed old
      | Some c =>
          match u16_u8_loop si src 0 1 (mkdst old c) with
          | GOver => Overrun
          | GFail => Failed (if clears then [] else old)
          | GOk d last =>
              match (if negb (last =? 0) then put qmark d else Some d) with
              | None => Overrun
              | Some d => Done (out d)
              end
          end
      end
  end.

(** Lines 1319-1376 (LE) and 1553-1611 (BE). *)
Fixpoint u32_u8_loop (si : Z -> Z) (src : list Z) (k : nat) (d : dst) : grown :=
  match src with
  | [] => GOk d 0
  | u :: r =>
      let ch := si u in
      match ensure k 6 d with
      | None => GFail
      | Some (k, d) =>
          match puts (if ch <? 128 then [to8 ch]
                      else if ch <? 2048 then form2 ch
                      else if ch <? 65536 then form3 ch
                      else if ch <? 2097152 then form4 ch
                      else if ch <? 67108864 then form5 ch
                      else if ch <? 2147483648 then form6 ch
                      else [qmark]) d with
          | None => GOver
          | Some d => u32_u8_loop si r k d
          end
      end
  end.
(** The frame of the growing functions with no state: lines 1301-1318 and 1378-1387. *)
Definition grow (loop : dst -> grown) (n : nat) (old src : list Z) : result :=
  match src with
  | [] => Done old
  | _ =>
      match grant 0 (length old + n) with
      | None => Failed old
      | Some c =>
          match loop (mkdst old c) with
          | GOver => Overrun
          | GFail => Failed old
          | GOk d _ => Done (out d)
          end
      end
  end.

(** Lines 1408-1438 (LE -> LE), 1467-1497 (LE -> BE), 1643-1675 (BE -> LE), 1704-1736 (BE ->
    BE).  [cast] is the cast of the two surrogates (lines 1428-1429 cast to [u8char_t], here [char8_t]),
    [q] the unit written for a value that is not a code point (line 1493 forgets to swap). *)
Fixpoint u32_u16_loop (si so cast : Z -> Z) (q : Z) (src : list Z) (k : nat) (d : dst) : grown :=
  match src with
  | [] => GOk d 0
  | u :: r =>
      let ch := si u in
      match ensure k 2 d with
      | None => GFail
      | Some (k, d) =>
          match puts (if ch <? 65536 then [so (to16 ch)]
                      else if ch <? 1114112 then
                        let c := to32 (ch - 65536) in
                        [so (cast (Z.shiftr c 10 + 55296)); so (cast (Z.land c 1023 + 56320))]
                      else [q]) d with
          | None => GOver
          | Some d => u32_u16_loop si so cast q r k d
          end
      end
  end.

(** ** The functions *)
Definition u8_u16LE (old src : list Z) := once (u8_u16_loop same src) qmark (length src) old src.
Definition u8_u16BE (old src : list Z) := once (u8_u16_loop bswap16 src) (bswap16 qmark) (length src) old src.
Definition u8_u32LE (old src : list Z) := once (u8_u32_loop same qmark src) qmark (length src) old src.
(** The last '?' (line 851) is not swapped either. *)
Definition u8_u32BE (old src : list Z) := once (u8_u32_loop bswap32 qmark src) qmark (length src) old src.
Definition u16LE_u8 := u16_u8 same true.
Definition u16BE_u8 := u16_u8 bswap16 false.
Definition u16LE_u32LE (old src : list Z) := once (u16_u32_loop same same src 0) qmark (length src) old src.
Definition u16BE_u32LE (old src : list Z) := once (u16_u32_loop bswap16 same src 0) qmark (length src) old src.
Definition u16BE_u32BE (old src : list Z) := once (u16_u32_loop bswap16 bswap32 src 0) (bswap32 qmark) (length src) old src.
Definition u32LE_u8 (old src : list Z) := grow (u32_u8_loop same src 1) (length src * 3) old src.
Definition u32BE_u8 (old src : list Z) := grow (u32_u8_loop bswap32 src 1) (length src * 3) old src.
Definition u32LE_u16LE (old src : list Z) := grow (u32_u16_loop same same to8 qmark src 1) (length src) old src.
Definition u32LE_u16BE (old src : list Z) := grow (u32_u16_loop same bswap16 to16 qmark src 1) (length src) old src.
Definition u32BE_u16LE (old src : list Z) := grow (u32_u16_loop bswap32 same to16 qmark src 1) (length src) old src.
Definition u32BE_u16BE (old src : list Z) := grow (u32_u16_loop bswap32 bswap16 to16 (bswap16 qmark) src 1) (length src) old src.
(** Lines 39-66: TransformEndian(const&); [sw] is [bswap16] or [bswap32]. *)
Fixpoint endian_loop (sw : Z -> Z) (src : list Z) (d : dst) : option (dst * bool) :=
  match src with
  | [] => Some (d, false)
  | u :: r => match put (sw u) d with Some d => endian_loop sw r d | None => None end
  end.
Definition endian (sw : Z -> Z) (old src : list Z) := once (endian_loop sw src) qmark (length src) old src.
End Alloc.
