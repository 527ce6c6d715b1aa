(** Model of NString, the string that carries its encoding (include/YY/Base/Strings/NString.h), together with
    the typed strings it shares buffers with (include/YY/Base/Strings/String.h).

    A heap maps addresses to StringData blocks.  A block has a reference count, the number of bytes that were
    allocated for characters, the recorded capacity, the text (the first uSize characters) and eEncoding.  A
    pointer is a block or the static empty string of a class.  A member of a typed string runs with the
    encoding and the character width of its class, whatever the block says; NString picks the class by
    eEncoding.  [None] is undefined behaviour: use of a freed block or a write behind the allocated bytes.

    Simplifications.
    - Memory is not exhausted and the number of bytes of a block fits size_t.  A capacity of -1 is SIZE_MAX, the
      one value that the arithmetic of NString.h can wrap to.
    - No buffer is locked between operations; one thread.
    - The text of a view is a list: it does not point into the string that is changed.
    - Transform is an oracle [conv] for the characters and [slack] for the capacity it asks for beyond them;
      UtfModel.v has the conversions themselves.  A conversion that fails leaves the destination as it was.
    - Encodings are the five Unicode ones and code pages; ANSI 0 is Encoding::ANSI. *)
From Coq Require Import List Bool Arith ZArith.
From Verif Require Import Slots.
Import ListNotations.

(** include/YY/Base/Encoding.h 9-35. *)
Inductive enc := ANSI (page : nat) | U8 | U16L | U16B | U32L | U32B.
Definition enc_dec : forall a b : enc, {a = b} + {a <> b}.
Proof. decide equality. apply Nat.eq_dec. Defined.
(** NString.h 800-814: GetCharSize; sizeof(char_t) of the class. *)
Definition width (e : enc) : nat := match e with ANSI _ | U8 => 1 | U16L | U16B => 2 | U32L | U32B => 4 end.
(** The template argument of the string class that NString uses for an encoding. *)
Definition cls (e : enc) : enc := match e with ANSI _ => ANSI 0 | _ => e end.
Definition is_ansi (e : enc) : bool := match e with ANSI _ => true | _ => false end.

(** StringData, String.h 1065-1085. *)
Record blk := mkblk { rc : nat; byt : nat; cap : Z; txt : list nat; tag : enc }.
Inductive ptr := Stat (e : enc) | Heap (a : nat).
Definition heap := (nat * (nat -> option blk))%type.
Definition upd (f : nat -> option blk) (k : nat) (v : option blk) : nat -> option blk := fun i => if i =? k then v else f i.
Definition put (h : heap) (a : nat) (v : option blk) : heap := (fst h, upd (snd h) a v).
Definition new (h : heap) (b : blk) : heap * ptr := ((S (fst h), upd (snd h) (fst h) (Some b)), Heap (fst h)).

(** What the pointer's block says: eEncoding, the text; IsShared (the static block has the greatest count). *)
Definition look (h : heap) (p : ptr) : option (enc * list nat * bool) :=
  match p with
  | Stat e => Some (e, [], true)
  | Heap a => match snd h a with Some b => Some (tag b, txt b, 1 <? rc b) | None => None end
  end.
(** AddRef and Release, String.h 1180-1214. *)
Definition addref (h : heap) (p : ptr) : option heap :=
  match p with
  | Stat _ => Some h
  | Heap a => match snd h a with Some b => Some (put h a (Some (mkblk (S (rc b)) (byt b) (cap b) (txt b) (tag b)))) | None => None end
  end.
Definition release (h : heap) (p : ptr) : option heap :=
  match p with
  | Stat _ => Some h
  | Heap a => match snd h a with
              | Some b => Some (put h a (if rc b =? 1 then None else Some (mkblk (rc b - 1) (byt b) (cap b) (txt b) (tag b))))
              | None => None end
  end.
(** [(n + 15) & ~15], String.h 1122, 1141. *)
Definition align16 (n : nat) : nat := (n + 15) / 16 * 16.
(** AllocStringData by class [c], String.h 1134-1158. *)
Definition alloc (c : enc) (n : nat) (l : list nat) : blk := mkblk 1 (align16 (n + 1) * width c) (Z.of_nat (align16 (n + 1)) - 1) l c.

(** LockBuffer(n), writing and UnlockBuffer(size) in class [c], String.h 266-332, for n > 0: the text becomes
    [f] of the old one, which has at most n characters. *)
Definition edit (c : enc) (h : heap) (p : ptr) (n : nat) (f : list nat -> list nat) : option (heap * ptr) :=
  match p with
  | Stat _ => Some (new h (alloc c n (f [])))
  | Heap a =>
      match snd h a with
      | None => None
      | Some b =>
          let n := Nat.max n (length (txt b)) in
          if 1 <? rc b then
            let (h1, q) := new h (alloc c n (f (txt b))) in
            match release h1 p with Some h2 => Some (h2, q) | None => None end
          else if ((0 <=? cap b) && (cap b <? Z.of_nat n))%Z then
            let k := align16 (Nat.max (Z.to_nat (cap b) + Z.to_nat (cap b) / 2) (n + 1)) in
            let (h1, q) := new h (mkblk 1 (k * width c) (Z.of_nat k - 1) (f (txt b)) (tag b)) in
            Some (put h1 a None, q)
          else if (length (f (txt b)) + 1) * width c <=? byt b
          then Some (put h a (Some (mkblk 1 (byt b) (cap b) (f (txt b)) (tag b))), p)
          else None
      end
  end.
(** Clear, String.h 346-360. *)
Definition clear (c : enc) (h : heap) (p : ptr) : option (heap * ptr) :=
  match p with
  | Stat _ => Some (h, Stat c)
  | Heap a =>
      match snd h a with
      | None => None
      | Some b => if 1 <? rc b then match release h p with Some h1 => Some (h1, Stat c) | None => None end
                  else if width c <=? byt b then Some (put h a (Some (mkblk 1 (byt b) (cap b) [] (tag b))), p) else None
      end
  end.
(** SetString(pointer, count), String.h 362-384. *)
Definition set_text (c : enc) (h : heap) (p : ptr) (l : list nat) : option (heap * ptr) :=
  match clear c h p with
  | None => None
  | Some (h1, q) => match l with [] => Some (h1, q) | _ => edit c h1 q (length l) (fun _ => l) end
  end.
(** AppendString(pointer, count), String.h 450-468, and what Transform does to its destination. *)
Definition append (c : enc) (h : heap) (p : ptr) (l : list nat) (extra : nat) : option (heap * ptr) :=
  match look h p with
  | None => None
  | Some (_, t, _) => if length l + extra =? 0 then Some (h, p) else edit c h p (length t + length l + extra) (fun t => t ++ l)
  end.
(** SetANSIEncoding of an aString, String.h 511-539: after LockBuffer of a shared buffer uSize is 0, and
    UnlockBuffer() leaves it. *)
Definition set_page (h : heap) (p : ptr) (e : enc) : option (heap * ptr) :=
  match look h p with
  | None => None
  | Some (e0, t, sh) =>
      if enc_dec e0 e then Some (h, p)
      else if negb (is_ansi e) then Some (h, p)
      else match edit (ANSI 0) h p 1 (fun t => if sh then [] else t) with
           | Some (h1, Heap a) =>
               match snd h1 a with
               | Some b => Some (put h1 a (Some (mkblk (rc b) (byt b) (cap b) (txt b) e)), Heap a)
               | None => None
               end
           | x => x
           end
  end.
(** Attach, String.h 1291-1296. *)
Definition attach (h : heap) (p q : ptr) : option (heap * ptr) := match release h p with Some h1 => Some (h1, q) | None => None end.
(** SetString(const StringBase&), String.h 391-409. *)
Definition set_from (h : heap) (p q : ptr) : option (heap * ptr) :=
  match p, q with
  | Heap a, Heap b => if a =? b then Some (h, p) else match addref h q with Some h1 => attach h1 p q | None => None end
  | _, _ => match addref h q with Some h1 => attach h1 p q | None => None end
  end.

(** ** NString *)
(** [(uCapacity + 1) * old / new - 1], NString.h 182, 862. *)
Definition scale (c : Z) (o n : nat) : Z := ((c + 1) * Z.of_nat o / Z.of_nat n - 1)%Z.
Definition rescale (b : blk) (o n : enc) : Z := if width o =? width n then cap b else scale (cap b) (width o) (width n).
(** Reset to the static string of encoding [e], NString.h 192-212; [e32] is the class the UTF32BE branch uses. *)
Definition reset (e32 : enc) (h : heap) (p : ptr) (e : enc) : option (heap * ptr) :=
  match release h p with
  | None => None
  | Some h1 =>
      match e with
      | ANSI _ => set_page h1 (Stat (ANSI 0)) e
      | U32B => Some (h1, Stat e32)
      | _ => Some (h1, Stat e)
      end
  end.
(** ClearAndUpdateEncoding, NString.h 823-871; UTF32BE uses szUTF16BE (line 844). *)
Definition caue (h : heap) (p : ptr) (e : enc) : option (heap * ptr) :=
  match look h p with
  | None => None
  | Some (e0, _, sh) =>
      if enc_dec e0 e then Some (h, p)
      else if sh then reset U16B h p e
      else match p with
           | Heap a =>
               match snd h a with
               | Some b => if width e <=? byt b then Some (put h a (Some (mkblk (rc b) (byt b) (rescale b e0 e) [] e)), p) else None
               | None => None
               end
           | Stat _ => None
           end
  end.
Section NString.
  Variable conv : enc -> enc -> list nat -> option (list nat).
  Variable slack : enc -> enc -> list nat -> nat.
  (** Transform into class [cls e], appending; text of a code page is appended as it is
      (StringTransform.cpp 122-135, 270-285, 1130-1135 ...). *)
  Definition transform (h : heap) (p : ptr) (e0 e : enc) (l : list nat) : option (heap * ptr * bool) :=
    if enc_dec (cls e0) (cls e) then match append (cls e) h p l 0 with Some (h1, q) => Some (h1, q, true) | None => None end
    else match conv e0 e l with
         | None => match append (cls e) h p [] (S (slack e0 e l)) with Some (h1, q) => Some (h1, q, false) | None => None end
         | Some r => match append (cls e) h p r (S (slack e0 e l)) with Some (h1, q) => Some (h1, q, true) | None => None end
         end.
  (** TransformEndian(StringA&&, StringB* ) into an empty string, StringTransform.cpp 81-98: LockBuffer, swap,
      UnlockBuffer, eEncoding, Attach, Release. *)
  Definition endian_move (h : heap) (p cur : ptr) (e0 e : enc) (t : list nat) : option (heap * ptr) :=
    match edit e0 h p (length t) (fun t => match conv e0 e t with Some r => r | None => t end) with
    | Some (h1, q) =>
        match q with
        | Heap a => match snd h1 a with
                    | Some b => match attach (put h1 a (Some (mkblk (rc b) (byt b) (cap b) (txt b) e))) cur q with
                                | Some (h2, q') => match release h2 q with Some h3 => Some (h3, q') | None => None end
                                | None => None end
                    | None => None end
        | Stat _ => None
        end
    | None => None
    end.
  Definition endian (e0 e : enc) : bool := match e0, e with U16L, U16B | U16B, U16L | U32L, U32B | U32B, U32L => true | _, _ => false end.
  (** SetEncoding, NString.h 162-410.  Result: the pointer and whether it reports success. *)
  Definition set_encoding (h : heap) (p : ptr) (e : enc) : option (heap * ptr * bool) :=
    match look h p with
    | None => None
    | Some (e0, t, _) =>
        if enc_dec e0 e then Some (h, p, true)
        else match t with
             | [] =>
                 match caue h p e with
                 | None => None
                 | Some (h1, q) =>
                     match look h1 p with
                     | None => None
                     | Some (_, _, sh) =>
                         if sh then match reset U32B h1 q e with Some (h2, q2) => Some (h2, q2, true) | None => None end
                         else match p with
                              | Heap a =>
                                  match snd h1 a with
                                  | Some b => Some (put h1 a (Some (mkblk (rc b) (byt b) (rescale b e0 e) (txt b) e)), q, true)
                                  | None => None
                                  end
                              | Stat _ => None
                              end
                     end
                 end
             | _ =>
                 (* the text moves to _szSrc and the string is the static one of the old class *)
                 let cur := Stat (cls e0) in
                 if is_ansi e0 && is_ansi e then
                   match set_page h p e with Some (h1, q) => match attach h1 cur q with Some (h2, q2) => Some (h2, q2, true) | None => None end | None => None end
                 else if endian e0 e then
                   match endian_move h p cur e0 e t with Some (h1, q) => Some (h1, q, true) | None => None end
                 else
                   match (if is_ansi e then
                            match clear (ANSI 0) h cur with
                            | Some (h1, q) => match edit (ANSI 0) h1 q (length t * 2) (fun _ => []) with Some (h2, q2) => set_page h2 q2 e | None => None end
                            | None => None
                            end
                          else Some (h, cur)) with
                   | None => None
                   | Some (h1, q) =>
                       match transform h1 q e0 e t with
                       | None => None
                       | Some (h2, q2, ok) => match release h2 p with Some h3 => Some (h3, q2, ok) | None => None end
                       end
                   end
             end
    end.
  (** SetString of a view, NString.h 412-421, 436-441, 455-476 ...; [e] is the encoding of the view. *)
  Definition n_set (h : heap) (p : ptr) (e : enc) (l : list nat) : option (heap * ptr) :=
    match e with
    | ANSI _ =>
        match look h p with
        | None => None
        | Some (e0, _, _) =>
            match (if is_ansi e0 then Some (h, p) else caue h p (ANSI 0)) with
            | None => None
            | Some (h1, q) => match set_text (ANSI 0) h1 q l with Some (h2, q2) => set_page h2 q2 e | None => None end
            end
        end
    | _ => match caue h p e with Some (h1, q) => set_text e h1 q l | None => None end
    end.
  (** SetString(const StringBase& ) of class [c], NString.h 422-428, 443-448 ... *)
  Definition n_set_from (h : heap) (p : ptr) (c : enc) (q : ptr) : option (heap * ptr) :=
    match look h p with
    | None => None
    | Some (e0, _, _) =>
        match (if is_ansi c && is_ansi e0 then Some (h, p) else caue h p c) with
        | Some (h1, p1) => set_from h1 p1 q
        | None => None
        end
    end.
  (** AppendStringT, NString.h 873-895. *)
  Definition n_append (h : heap) (p : ptr) (e : enc) (l : list nat) : option (heap * ptr * bool) :=
    match l with
    | [] => Some (h, p, true)
    | _ => match look h p with None => None | Some (e0, _, _) => transform h p e e0 l end
    end.
  (** GetString, NString.h 605-754, into a string of class [c] at [q]. *)
  Definition n_get (h : heap) (p : ptr) (c : enc) (q : ptr) : option (heap * ptr * bool) :=
    match look h q with
    | None => None
    | Some (eq0, _, _) =>
        match clear c h q with
        | None => None
        | Some (h1, q1) =>
            match look h1 p with
            | None => None
            | Some (e, t, _) =>
                if enc_dec (cls e) c then match set_from h1 q1 p with Some (h2, q2) => Some (h2, q2, true) | None => None end
                else match (if is_ansi c then set_page h1 q1 eq0 else Some (h1, q1)) with
                     | None => None
                     | Some (h2, q2) => match t with [] => Some (h2, q2, true) | _ => transform h2 q2 e (if is_ansi c then eq0 else c) t end
                     end
            end
        end
    end.
  (** Clear, NString.h 761-791. *)
  Definition n_clear (h : heap) (p : ptr) : option (heap * ptr) :=
    match look h p with
    | None => None
    | Some (e, [], _) => Some (h, p)
    | Some (e, _, _) => match clear (cls e) h p with Some (h1, q) => if is_ansi e then set_page h1 q e else Some (h1, q) | None => None end
    end.

  (** ** Objects *)
  (** [None] of the class is NString. *)
  Record obj := mkobj { ocls : option enc; optr : ptr }.
  Definition st := (heap * list (option obj))%type.
  Definition init (n : nat) : st := ((0, fun _ => None), repeat None n).
  Inductive op :=
  | New (i : nat) (c : option enc)             (* default constructor *)
  | NewView (i : nat) (e : enc) (l : list nat) (* a typed string from a view *)
  | Copy (i j : nat)                           (* copy of a typed string *)
  | FromStr (i j : nat)                        (* NString(const StringBase& ) *)
  | FromMove (i j : nat)                       (* NString(StringBase&& ) *)
  | Drop (i : nat)
  | Set_ (i : nat) (l : list nat)              (* typed: SetString(view) *)
  | App (i : nat) (l : list nat)               (* typed: AppendString(view) *)
  | Page (i : nat) (e : enc)                   (* aString::SetANSIEncoding *)
  | NSet (i : nat) (e : enc) (l : list nat)
  | NSetStr (i j : nat)
  | NSetMove (i j : nat)
  | NApp (i : nat) (e : enc) (l : list nat)
  | NEnc (i : nat) (e : enc)
  | NGet (i j : nat)
  | NClear (i : nat).
  Definition get (s : st) (i : nat) : option obj := match nth_error (snd s) i with Some (Some o) => Some o | _ => None end.
  Definition free_slot (s : st) (i : nat) : bool := match nth_error (snd s) i with Some None => true | _ => false end.
  (** Outcome: undefined behaviour, an operation that does not apply, or a state and the result code. *)
  Inductive res := UB | Skip | Ok (s : st) (b : bool).
  Definition upd_p (s : st) (i : nat) (c : option enc) (r : option (heap * ptr)) : res :=
    match r with None => UB | Some (h, p) => Ok (h, set (snd s) i (Some (mkobj c p))) true end.
  Definition upd_pb (s : st) (i : nat) (c : option enc) (r : option (heap * ptr * bool)) : res :=
    match r with None => UB | Some (h, p, b) => Ok (h, set (snd s) i (Some (mkobj c p))) b end.
  Definition exec (s : st) (o : op) : res :=
    match o with
    | New i c => if free_slot s i then Ok (fst s, set (snd s) i (Some (mkobj (match c with Some e => Some (cls e) | None => None end) (Stat (match c with Some e => cls e | None => ANSI 0 end))))) true else Skip
    | NewView i e l =>
        if free_slot s i then
          upd_p s i (Some (cls e)) (match set_text (cls e) (fst s) (Stat (cls e)) l with Some (h, p) => if is_ansi e then set_page h p e else Some (h, p) | None => None end)
        else Skip
    | Copy i j =>
        match get s j with
        | Some (mkobj (Some c) q) => if free_slot s i then upd_p s i (Some c) (match addref (fst s) q with Some h => Some (h, q) | None => None end) else Skip
        | _ => Skip end
    | FromStr i j =>
        match get s j with
        | Some (mkobj (Some c) q) => if free_slot s i then upd_p s i None (match addref (fst s) q with Some h => Some (h, q) | None => None end) else Skip
        | _ => Skip end
    | FromMove i j =>
        match get s j with
        | Some (mkobj (Some c) q) => if free_slot s i then Ok (fst s, set (set (snd s) i (Some (mkobj None q))) j (Some (mkobj (Some c) (Stat c)))) true else Skip
        | _ => Skip end
    | Drop i => match get s i with Some o => match release (fst s) (optr o) with Some h => Ok (h, set (snd s) i None) true | None => UB end | None => Skip end
    | Set_ i l => match get s i with Some (mkobj (Some c) p) => upd_p s i (Some c) (set_text c (fst s) p l) | _ => Skip end
    | App i l => match get s i with Some (mkobj (Some c) p) => upd_p s i (Some c) (append c (fst s) p l 0) | _ => Skip end
    | Page i e => match get s i with Some (mkobj (Some (ANSI k)) p) => upd_p s i (Some (ANSI k)) (set_page (fst s) p e) | _ => Skip end
    | NSet i e l => match get s i with Some (mkobj None p) => upd_p s i None (n_set (fst s) p e l) | _ => Skip end
    | NSetStr i j =>
        match get s i, get s j with
        | Some (mkobj None p), Some (mkobj (Some c) q) => upd_p s i None (n_set_from (fst s) p c q)
        | _, _ => Skip end
    | NSetMove i j =>
        match get s i, get s j with
        | Some (mkobj None p), Some (mkobj (Some c) q) =>
            (* szString != _szSrc.szString, String.h 411-425 *)
            if match p, q with Heap a, Heap b => a =? b | _, _ => false end then Ok s true
            else match attach (fst s) p q with
                 | Some (h, p1) => Ok (h, set (set (snd s) i (Some (mkobj None p1))) j (Some (mkobj (Some c) (Stat c)))) true
                 | None => UB end
        | _, _ => Skip end
    | NApp i e l => match get s i with Some (mkobj None p) => upd_pb s i None (n_append (fst s) p e l) | _ => Skip end
    | NEnc i e => match get s i with Some (mkobj None p) => upd_pb s i None (set_encoding (fst s) p e) | _ => Skip end
    | NGet i j =>
        match get s i, get s j with
        | Some (mkobj None p), Some (mkobj (Some c) q) => upd_pb s j (Some c) (n_get (fst s) p c q)
        | _, _ => Skip end
    | NClear i => match get s i with Some (mkobj None p) => upd_p s i None (n_clear (fst s) p) | _ => Skip end
    end.
  Fixpoint run (s : st) (l : list op) : res :=
    match l with [] => Ok s true | o :: r => match exec s o with Ok s' _ => run s' r | Skip => run s r | UB => UB end end.
End NString.
