(** Model of the [Span] view (include/YY/Base/Containers/Span.h) and of the members of
    [StringView] (include/YY/Base/Strings/StringView.h) with the same text.

    A span is a memory block (list of elements), the position of [pData] in that block
    and the length [cData].  Reading outside the block is the outcome [None].
    [eqb] is the element [operator==]; [operator!=] of an element is its negation
    (simplification: the C++ type could define the two independently). *)
From Coq Require Import ZArith Lia Bool List.
From Verif Require Import Word.
Import ListNotations.
Local Open Scope Z_scope.

Section Span.
  Variable A : Type.
  Variable eqb : A -> A -> bool.

  (** Span.h:17-19: [ValueType* pData; size_t cData].  [sp_mem] is the block that
      [pData] points into, [sp_off] the distance of [pData] from its start. *)
  Record span := mkspan { sp_mem : list A; sp_off : Z; sp_len : Z }.

  (** [pData[i]] (Span.h:558-566). *)
  Definition rd (s : span) (i : Z) : option A :=
    let p := sp_off s + i in
    if (0 <=? p) && (p <? Z.of_nat (length (sp_mem s)))
    then nth_error (sp_mem s) (Z.to_nat p) else None.

  (** A loop [for (i = ..; n more rounds; ++i) if (test(i)) return i; return kuInvalidIndex]. *)
  Fixpoint find_up (test : Z -> option bool) (i : Z) (n : nat) : option Z :=
    match n with
    | O => Some U64MAX
    | S n' => match test i with
              | None => None
              | Some true => Some i
              | Some false => find_up test (i + 1) n'
              end
    end.

  (** A loop [while (p != first) { --p; if (test(p)) return p - first; } return kuInvalidIndex]. *)
  Fixpoint find_down (test : Z -> option bool) (n : nat) : option Z :=
    match n with
    | O => Some U64MAX
    | S n' => match test (Z.of_nat n') with
              | None => None
              | Some true => Some (Z.of_nat n')
              | Some false => find_down test n'
              end
    end.

  (** Span.h:70-84, StringView.h:517-531: [Slice].  The sum and both subtractions are
      [size_t] arithmetic; the pointer moves modulo 2^64 (one-byte elements). *)
  Definition Slice (s : span) (rs re : Z) : span :=
    if sp_len s <=? u64 (rs + re) then mkspan (sp_mem s) (sp_off s) 0
    else mkspan (sp_mem s) (s64 (sp_off s + rs)) (u64 (u64 (sp_len s - rs) - re)).

  (** Span.h:91-101, StringView.h:533-543. *)
  Definition Subspan1 (s : span) (i : Z) : span :=
    if i <? sp_len s then mkspan (sp_mem s) (sp_off s + i) (sp_len s - i)
    else mkspan (sp_mem s) (sp_off s + sp_len s) 0.

  (** Span.h:109-119, StringView.h:545-555. *)
  Definition Subspan (s : span) (i n : Z) : span :=
    if i <? sp_len s then mkspan (sp_mem s) (sp_off s + i) (Z.min (sp_len s - i) n)
    else mkspan (sp_mem s) (sp_off s + sp_len s) 0.

  (** Span.h:126-138, StringView.h:251-263. *)
  Definition test_value (s : span) (v : A) (i : Z) : option bool :=
    match rd s i with Some x => Some (eqb x v) | None => None end.
  Definition IndexOf (s : span) (v : A) : option Z :=
    find_up (test_value s v) 0 (Z.to_nat (sp_len s)).

  (** Span.h:568-580: [operator==]: the loop returns false at the first difference. *)
  Definition test_differs (a b : span) (i : Z) : option bool :=
    match rd a i, rd b i with
    | Some x, Some y => Some (negb (eqb x y))
    | _, _ => None
    end.
  Definition span_eq (a b : span) : option bool :=
    if negb (sp_len a =? sp_len b) then Some false
    else match find_up (test_differs a b) 0 (Z.to_nat (sp_len a)) with
         | None => None
         | Some r => Some (r =? U64MAX)
         end.

  (** Span.h:582-594: [operator!=]: the loop returns true at the first pair that is
      {e equal} (the code tests [==] where it should test [!=]). *)
  Definition test_same (a b : span) (i : Z) : option bool :=
    match rd a i, rd b i with
    | Some x, Some y => Some (eqb x y)
    | _, _ => None
    end.
  Definition span_ne (a b : span) : option bool :=
    if negb (sp_len a =? sp_len b) then Some true
    else match find_up (test_same a b) 0 (Z.to_nat (sp_len a)) with
         | None => None
         | Some r => Some (negb (r =? U64MAX))
         end.

  (** StringView.h:132-146: [operator==] and [operator!=] of string views compare with
      [memcmp]; on characters (plain integers) that is element-wise comparison. *)
  Definition view_eq (a b : span) : option bool := span_eq a b.
  Definition view_ne (a b : span) : option bool :=
    if negb (sp_len a =? sp_len b) then Some true
    else match find_up (test_differs a b) 0 (Z.to_nat (sp_len a)) with
         | None => None
         | Some r => Some (negb (r =? U64MAX))
         end.

  (** Span.h:145-163, StringView.h:270-289: the scan runs over the start positions
      [0 .. GetLength() - needle length]. *)
  Definition test_span (s needle : span) (i : Z) : option bool :=
    span_eq (mkspan (sp_mem s) (sp_off s + i) (sp_len needle)) needle.
  Definition IndexOfSpan (s needle : span) : option Z :=
    if sp_len needle =? 0 then Some U64MAX
    else if sp_len s <? sp_len needle then Some U64MAX
    else find_up (test_span s needle) 0 (Z.to_nat (sp_len s - sp_len needle + 1)).

  (** Span.h:170-185, StringView.h:296-311. *)
  Definition test_any (s anyof : span) (i : Z) : option bool :=
    match rd s i with
    | None => None
    | Some x => match IndexOf anyof x with
                | None => None
                | Some r => Some (negb (r =? U64MAX))
                end
    end.
  Definition IndexOfAny (s anyof : span) : option Z :=
    if sp_len anyof =? 0 then Some U64MAX
    else find_up (test_any s anyof) 0 (Z.to_nat (sp_len s)).

  (** Span.h:192-205, StringView.h:318-331. *)
  Definition LastIndexOf (s : span) (v : A) : option Z :=
    find_down (test_value s v) (Z.to_nat (sp_len s)).

  (** Span.h:212-232, StringView.h:338-359. *)
  Definition LastIndexOfSpan (s needle : span) : option Z :=
    if sp_len needle =? 0 then Some U64MAX
    else if sp_len s <? sp_len needle then Some U64MAX
    else find_down (test_span s needle) (Z.to_nat (sp_len s - sp_len needle + 1)).

  (** Span.h:239-255, StringView.h:366-382. *)
  Definition LastIndexOfAny (s anyof : span) : option Z :=
    if sp_len anyof =? 0 then Some U64MAX
    else find_down (test_any s anyof) (Z.to_nat (sp_len s)).

  (** The common tail of the ranged searches (Span.h:264-378, StringView.h:391-505):
      [if (sub == kuInvalidIndex) return kuInvalidIndex; return _uIndex + sub;]. *)
  Definition rebase (i : Z) (r : option Z) : option Z :=
    match r with
    | None => None
    | Some k => if k =? U64MAX then Some U64MAX else Some (u64 (i + k))
    end.

  (** Span.h:264-274, StringView.h:391-401. *)
  Definition IndexOfR (s : span) (v : A) (i n : Z) : option Z :=
    if sp_len s =? 0 then Some U64MAX else rebase i (IndexOf (Subspan s i n) v).
  (** Span.h:283-296, StringView.h:410-423. *)
  Definition IndexOfSpanR (s needle : span) (i n : Z) : option Z :=
    if sp_len needle =? 0 then Some U64MAX
    else if sp_len s =? 0 then Some U64MAX
    else rebase i (IndexOfSpan (Subspan s i n) needle).
  (** Span.h:305-318, StringView.h:432-445. *)
  Definition IndexOfAnyR (s anyof : span) (i n : Z) : option Z :=
    if sp_len s =? 0 then Some U64MAX
    else if sp_len anyof =? 0 then Some U64MAX
    else rebase i (IndexOfAny (Subspan s i n) anyof).
  (** Span.h:327-337, StringView.h:454-464. *)
  Definition LastIndexOfR (s : span) (v : A) (i n : Z) : option Z :=
    if sp_len s =? 0 then Some U64MAX else rebase i (LastIndexOf (Subspan s i n) v).
  (** Span.h:346-359, StringView.h:473-486. *)
  Definition LastIndexOfSpanR (s needle : span) (i n : Z) : option Z :=
    if sp_len s =? 0 then Some U64MAX
    else if sp_len needle =? 0 then Some U64MAX
    else rebase i (LastIndexOfSpan (Subspan s i n) needle).
  (** Span.h:368-378, StringView.h:495-505. *)
  Definition LastIndexOfAnyR (s anyof : span) (i n : Z) : option Z :=
    if sp_len anyof =? 0 then Some U64MAX
    else rebase i (LastIndexOfAny (Subspan s i n) anyof).

  (** Span.h:385-404, StringView.h:557-576: the [while (cData)] loop; [n] is the number
      of elements left, so the recursion is the loop itself. *)
  Fixpoint trim_start_loop (s trim : span) (n : nat) : option span :=
    match n with
    | O => Some s
    | S n' =>
        match rd s 0 with
        | None => None
        | Some x =>
            match IndexOf trim x with
            | None => None
            | Some r => if negb (r =? U64MAX)
                        then trim_start_loop (mkspan (sp_mem s) (sp_off s + 1) (sp_len s - 1)) trim n'
                        else Some s
            end
        end
    end.
  Definition TrimStart (s trim : span) : option span :=
    if sp_len trim =? 0 then Some s else trim_start_loop s trim (Z.to_nat (sp_len s)).

  (** Span.h:411-428, StringView.h:578-595. *)
  Fixpoint trim_end_loop (s trim : span) (n : nat) : option span :=
    match n with
    | O => Some s
    | S n' =>
        match rd s (sp_len s - 1) with
        | None => None
        | Some x =>
            match IndexOf trim x with
            | None => None
            | Some r => if negb (r =? U64MAX)
                        then trim_end_loop (mkspan (sp_mem s) (sp_off s) (sp_len s - 1)) trim n'
                        else Some s
            end
        end
    end.
  Definition TrimEnd (s trim : span) : option span :=
    if sp_len trim =? 0 then Some s else trim_end_loop s trim (Z.to_nat (sp_len s)).

  (** Span.h:435-440, StringView.h:597-602. *)
  Definition Trim (s trim : span) : option span :=
    match TrimStart s trim with
    | None => None
    | Some s' => TrimEnd s' trim
    end.

  (** Span.h:449-470, StringView.h:611-632: the piece and [*_puNextSplitIndex]. *)
  Definition SplitAndTakeFirst (s : span) (v : A) (i : Z) : option (span * Z) :=
    match IndexOfR s v i U64MAX with
    | None => None
    | Some k => if k =? U64MAX then Some (Subspan1 s i, sp_len s)
                else Some (Subspan s i (u64 (k - i)), u64 (k + 1))
    end.

  (** Span.h:479-500, StringView.h:641-662. *)
  Definition SplitAndTakeFirstSpan (s sep : span) (i : Z) : option (span * Z) :=
    match IndexOfSpanR s sep i U64MAX with
    | None => None
    | Some k => if k =? U64MAX then Some (Subspan1 s i, sp_len s)
                else Some (Subspan s i (u64 (k - i)), u64 (k + sp_len sep))
    end.

  (** StringView.h:670-680: the first piece and the remaining text. *)
  Definition SplitRemaining (s : span) (v : A) : option (span * span) :=
    match SplitAndTakeFirst s v 0 with
    | None => None
    | Some (p, nx) => Some (p, Subspan1 s nx)
    end.

  (** StringView.h:688-697. *)
  Definition SplitRemainingSpan (s sep : span) : option (span * span) :=
    match SplitAndTakeFirstSpan s sep 0 with
    | None => None
    | Some (p, nx) => Some (p, Subspan1 s nx)
    end.

  (** The use of [SplitAndTakeFirst] to walk through a text: start at 0 and call it with
      the index it returned until that index reaches the end
      (this is the loop of String.h:959-1011). [fuel] bounds the rounds; running out of
      fuel is [None], so a theorem that the result is [Some] includes termination. *)
  Fixpoint split_walk (step : Z -> option (span * Z)) (len : Z) (fuel : nat) (i : Z)
    : option (list span) :=
    if i <? len then
      match fuel with
      | O => None
      | S f =>
          match step i with
          | None => None
          | Some (p, nx) =>
              match split_walk step len f nx with
              | None => None
              | Some ps => Some (p :: ps)
              end
          end
      end
    else Some [].
  Definition Pieces (s : span) (v : A) (fuel : nat) : option (list span) :=
    split_walk (SplitAndTakeFirst s v) (sp_len s) fuel 0.
  Definition PiecesSpan (s sep : span) (fuel : nat) : option (list span) :=
    split_walk (SplitAndTakeFirstSpan s sep) (sp_len s) fuel 0.

  Definition found (r : option Z) : option bool :=
    match r with None => None | Some k => Some (negb (k =? U64MAX)) end.
  (** Span.h:507-510, 517-520, 527-530; StringView.h:704-727. *)
  Definition Contains (s : span) (v : A) : option bool := found (IndexOf s v).
  Definition ContainsSpan (s needle : span) : option bool := found (IndexOfSpan s needle).
  Definition ContainsAny (s anyof : span) : option bool := found (IndexOfAny s anyof).

  (** Span.h:537-543, StringView.h:734-740. *)
  Definition StartsWith (s x : span) : option bool :=
    if sp_len s <? sp_len x then Some false
    else span_eq (Subspan s 0 (sp_len x)) x.

  (** Span.h:550-556, StringView.h:747-753. *)
  Definition EndsWith (s x : span) : option bool :=
    if sp_len s <? sp_len x then Some false
    else span_eq (Subspan s (sp_len s - sp_len x) (sp_len x)) x.
End Span.

Arguments mkspan {A}.
Arguments sp_mem {A}. Arguments sp_off {A}. Arguments sp_len {A}.
Arguments rd {A}. Arguments Slice {A}. Arguments Subspan1 {A}. Arguments Subspan {A}.
Arguments test_value {A}. Arguments IndexOf {A}. Arguments test_differs {A}.
Arguments span_eq {A}. Arguments test_same {A}. Arguments span_ne {A}.
Arguments view_eq {A}. Arguments view_ne {A}. Arguments test_span {A}.
Arguments IndexOfSpan {A}. Arguments test_any {A}. Arguments IndexOfAny {A}.
Arguments LastIndexOf {A}. Arguments LastIndexOfSpan {A}. Arguments LastIndexOfAny {A}.
Arguments IndexOfR {A}. Arguments IndexOfSpanR {A}. Arguments IndexOfAnyR {A}.
Arguments LastIndexOfR {A}. Arguments LastIndexOfSpanR {A}. Arguments LastIndexOfAnyR {A}.
Arguments trim_start_loop {A}. Arguments trim_end_loop {A}.
Arguments TrimStart {A}. Arguments TrimEnd {A}. Arguments Trim {A}.
Arguments SplitAndTakeFirst {A}. Arguments SplitAndTakeFirstSpan {A}.
Arguments SplitRemaining {A}. Arguments SplitRemainingSpan {A}.
Arguments split_walk {A}. Arguments Pieces {A}. Arguments PiecesSpan {A}.
Arguments Contains {A}. Arguments ContainsSpan {A}. Arguments ContainsAny {A}.
Arguments StartsWith {A}. Arguments EndsWith {A}.
