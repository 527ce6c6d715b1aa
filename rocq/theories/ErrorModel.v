(** Error codes and what the thread pool does with them: include/YY/Base/ErrorCode.h, include/YY/Base/YY.h 214-220,
    src/YY/Base/Threading/ThreadPool.Linux.h 53-72, ThreadPool.Windows.h 32-56.

    HRESULT and LSTATUS are long: 32 bits on Windows and on 32-bit systems, 64 bits on 64-bit Linux.  [bits] is that
    width; codes are signed integers.  The codes of Windows come from winerror.h, which is not part of the repository. *)
From Coq Require Import ZArith List Bool.
Import ListNotations.
Open Scope Z_scope.

(** SUCCEEDED and FAILED, ErrorCode.h 14-20. *)
Definition succeeded (hr : Z) : bool := 0 <=? hr.
Definition failed (hr : Z) : bool := hr <? 0.

(** The constants for systems other than Windows, ErrorCode.h 22-39. *)
Definition S_OK : Z := 0.
Definition S_FALSE : Z := 0.
Definition E_INVALIDARG : Z := 1.
Definition E_OUTOFMEMORY : Z := 2.
Definition E_POINTER : Z := 3.
Definition E_UNEXPECTED : Z := 4.
Definition E_BOUNDS : Z := 5.
Definition E_NOINTERFACE : Z := 5.
Definition E_NOTIMPL : Z := 5.
Definition E_FAIL : Z := 5.
Definition E_PENDING : Z := 5.
Definition E_ABORT : Z := 5.
Definition E_NOT_SET : Z := 5.
Definition errors : list Z :=
  [E_INVALIDARG; E_OUTOFMEMORY; E_POINTER; E_UNEXPECTED; E_BOUNDS; E_NOINTERFACE; E_NOTIMPL; E_FAIL; E_PENDING; E_ABORT; E_NOT_SET].

(** Conversion of a non-negative integer below 2^32 to long. *)
Definition to_long (bits v : Z) : Z := if v <? 2 ^ (bits - 1) then v else v - 2 ^ bits.

(** HRESULT_From_LSTATUS, ErrorCode.h 41-51 (line 47 is the macro of winerror.h that line 49 repeats). *)
Definition from_lstatus (bits l : Z) : Z :=
  if l =? 0 then S_OK
  else if l <=? 0 then l
  else to_long bits (Z.lor (Z.lor (Z.land l 65535) (Z.shiftl 7 16)) 2147483648).

(** What ExecuteTask says on Linux: S_OK, or one of its two error codes (ThreadPool.Linux.cc 34, 53, 74). *)
Inductive linux_answer := LOk | LNoMem | LFail.
Definition linux_hr (a : linux_answer) : Z := match a with LOk => S_OK | LNoMem => E_OUTOFMEMORY | LFail => E_FAIL end.
(** PostTaskInternal: the references of the task afterwards.  [ran]: the callback has been run, which releases one.
    Linux: ThreadPool.Linux.h 53-72. *)
Definition linux_post (refs : Z) (a : linux_answer) (ran : bool) : Z :=
  let r := refs + 1 in
  let r := if ran then r - 1 else r in
  if failed (linux_hr a) then r - 1 else r.
(** Windows: ThreadPool.Windows.h 32-56; [ok] is what TrySubmitThreadpoolCallback returned. *)
Definition windows_post (refs : Z) (ok ran : bool) : Z :=
  let r := refs + 1 in
  let r := if ran then r - 1 else r in
  if ok then r else r - 1.
