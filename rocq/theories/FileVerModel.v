(** Versions of files and of the system: src/YY/Base/Utils/FileInfo.cpp 17-79 and src/YY/Base/Utils/SystemInfo.cpp 15-52.

    The answers of the system are arguments.  A call may fail with what GetLastError then returns, or, where it touches the
    mapped file, raise an exception: [Disk] is one of the two codes of the filter in line 75, [Other] any other.

    Simplifications: the error codes are non-negative 32-bit numbers; alloca does not overflow the stack. *)
From Coq Require Import ZArith Bool.
From Verif Require Import ErrorModel.
Open Scope Z_scope.

(** Version, include/YY/Base/Utils/Version.h 16-30, as the two 32-bit halves and as the value that is compared. *)
Record version := V { low : Z; high : Z }.
Definition internal (v : version) : Z := high v * 2 ^ 32 + low v.
Definition parts (major minor build revision : Z) : version := V (build * 2 ^ 16 + revision) (major * 2 ^ 16 + minor).

Inductive exn := Disk | Other.
Inductive ans (A : Type) := Gives (a : A) | Fails (err : Z) | Raises (e : exn).
Arguments Gives {A}. Arguments Fails {A}. Arguments Raises {A}.
(** ERROR_DISK_OPERATION_FAILED of winerror.h. *)
Definition disk_failed : Z := 1127.
(** How a function ends: it returns a code, or an exception leaves it. *)
Inductive ending := Returned (hr : Z) | Left.
Definition hr_of (err : Z) : Z := from_lstatus 32 err.

(** The answers for one module: FindResourceExW, LoadResource, the copy of line 62, VerQueryValueW, the reads of lines 70
    and 71. *)
Record answers := Ans { find : ans unit; load : ans unit; copy : ans unit; query : ans unit; read_ls : ans Z; read_ms : ans Z }.
(** Continue after one of them: failures return at once, exceptions go to the filter. *)
Definition caught (v : version) (e : exn) : version * ending :=
  match e with Disk => (v, Returned (hr_of disk_failed)) | Other => (v, Left) end.
Definition next {A} (v : version) (a : ans A) (k : A -> version * ending) : version * ending :=
  match a with Gives x => k x | Fails err => (v, Returned (hr_of err)) | Raises e => caught v e end.
(** FileInfo.cpp 29-79; [os] is the version of the system, which line 49 compares with 6.0. *)
Definition module_version (os : version) (s : answers) : version * ending :=
  let v := V 0 0 in
  next v (find s) (fun _ =>
  next v (load s) (fun _ =>
  next v (if internal (parts 6 0 0 0) <=? internal os then Gives tt else copy s) (fun _ =>
  next v (query s) (fun _ =>
  next v (read_ls s) (fun ls => let v := V ls (high v) in
  next v (read_ms s) (fun ms => (V (low v) ms, Returned 0))))))).
(** FileInfo.cpp 17-27.  [open]: LoadLibraryExW.  The third part: how often the module was loaded, minus how often it was
    freed. *)
Definition file_version (os : version) (open : ans unit) (s : answers) : version * ending * Z :=
  match open with
  | Gives _ => let (v, e) := module_version os s in (v, e, match e with Returned _ => 1 - 1 | Left => 1 end)
  | Fails err => (V 0 0, Returned (hr_of err), 0)
  | Raises _ => (V 0 0, Left, 0)
  end.

(** GetOperatingSystemVersion, SystemInfo.cpp 15-52; [sp] is HIBYTE(OSCSDVersion). *)
Definition u16 (x : Z) : Z := x mod 2 ^ 16.
Definition nt51 : version := parts 5 1 2600 0.   (* SystemInfo.h 20 *)
Definition nt52 : version := parts 5 2 3790 0.   (* SystemInfo.h 29 *)
Definition set_revision (v : version) (r : Z) : version := V (low v / 2 ^ 16 * 2 ^ 16 + r) (high v).
Definition os_version (major minor build sp : Z) : version :=
  let v := parts (u16 major) (u16 minor) (u16 build) 0 in
  if internal v =? internal nt51 then (if sp =? 0 then v else if sp =? 1 then set_revision v 1106 else if sp =? 2 then set_revision v 2180 else set_revision v 5512)
  else if internal v =? internal nt52 then (if sp =? 0 then v else set_revision v 1830)
  else v.
