(** Sizes of the blocks that the copy-on-write and the small-object [Array] request
    (include/YY/Base/Containers/Array.h) and the zeroing allocation functions
    (include/YY/Base/Memory/Alloc.h), with 64-bit size arithmetic.

    Simplifications.  size_t has 64 bits; [sz] is sizeof(_Type); sizeof(SharedData) is 32.
    Memory is a list of byte values; the allocator is assumed to hand out exactly the
    requested number of bytes. *)
From Coq Require Import ZArith Lia List.
From Verif Require Import Word.
Import ListNotations.
Local Open Scope Z_scope.

Definition sizeof_SharedData : Z := 32.

(** [(_uNewCapacity + 15) & ~15], Array.h 406, 438, 1024. *)
Definition align_up16 (n : Z) : Z := ((n + 15) mod W64) / 16 * 16.

(** [sizeof(SharedData) + sizeof(_Type) * _uNewCapacity], Array.h 413, 419, 443. *)
Definition block_bytes (sz cap : Z) : Z := (sizeof_SharedData + (sz * cap) mod W64) mod W64.

(** A buffer: the static empty one, or [bytes] allocated for a recorded capacity. *)
Inductive buffer := Static | Block (bytes cap : Z).

(** SharedData::Alloc, Array.h 435-452. *)
Definition SharedAlloc (sz n : Z) : buffer :=
  if align_up16 n =? 0 then Static else Block (block_bytes sz (align_up16 n)) (align_up16 n).

(** The growing part of SharedData::ReAlloc, Array.h 405-430.  For element types that are not
    trivially copyable the unqualified [Alloc] at 419 is SharedData::Alloc, which takes
    a number of elements but is given a number of bytes. *)
Definition SharedReAlloc (trivial : bool) (sz n : Z) : buffer :=
  let cap := align_up16 n in
  if trivial then Block (block_bytes sz cap) cap
  else match SharedAlloc sz (block_bytes sz cap) with
       | Static => Static
       | Block bytes _ => Block bytes cap
       end.

(** InternalData::Realloc of the small-object policy requests [_uNewCapacity * sizeof(_Type)]
    bytes, Array.h 814, 841, 849. *)
Definition soo_bytes (sz cap : Z) : Z := (cap * sz) mod W64.

(** GetNewCapacity, Array.h 588-599 and 995-1006. *)
Definition NewCapacity (c need : Z) : Z :=
  if need <=? c then c
  else let c' := (c + c / 2) mod W64 in if need <=? c' then c' else need.

(** ReAllocAndZero without _MSC_VER, Alloc.h 35-48: realloc keeps the old bytes and then all
    bytes of the new block are cleared.  [junk] are the bytes that realloc adds. *)
Definition realloc_bytes (old junk : list Z) (n : nat) : list Z := firstn n (old ++ junk).
Definition ReAllocAndZero (old junk : list Z) (n : nat) : list Z := map (fun _ => 0) (realloc_bytes old junk n).
