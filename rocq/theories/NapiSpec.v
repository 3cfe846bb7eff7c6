(** The targets of the native library of the Node.js SDK *)
From Verif Require Import Base NapiModel.
Open Scope string_scope.

(** The C library of a Linux machine: that of the report, and without a report what ldd says; a
    machine on which neither is known counts as musl. *)
Inductive clib := Gnu | Musl.
Definition c_library {L E} (includes : string -> string -> bool) (m : machine L E) (c : clib) : Prop :=
  match report m, glibc m, ldd m with
  | true, Some v, _ => c = if String.eqb v "" then Musl else Gnu
  | true, None, _ => c = Musl
  | false, _, Some t => c = if includes t "musl" then Musl else Gnu
  | false, _, None => c = Musl
  end.

(** Platform, architecture, C library, target *)
Inductive target_of : string -> string -> clib -> string -> Prop :=
| AndroidArm64 c : target_of "android" "arm64" c "android-arm64"
| AndroidArm c : target_of "android" "arm" c "android-arm-eabi"
| WindowsX64 c : target_of "win32" "x64" c "win32-x64-msvc"
| WindowsIa32 c : target_of "win32" "ia32" c "win32-ia32-msvc"
| WindowsArm64 c : target_of "win32" "arm64" c "win32-arm64-msvc"
| MacX64 c : target_of "darwin" "x64" c "darwin-x64"
| MacArm64 c : target_of "darwin" "arm64" c "darwin-arm64"
| FreeBsdX64 c : target_of "freebsd" "x64" c "freebsd-x64"
| LinuxX64Musl : target_of "linux" "x64" Musl "linux-x64-musl"
| LinuxX64Gnu : target_of "linux" "x64" Gnu "linux-x64-gnu"
| LinuxArm64Musl : target_of "linux" "arm64" Musl "linux-arm64-musl"
| LinuxArm64Gnu : target_of "linux" "arm64" Gnu "linux-arm64-gnu"
| LinuxArmMusl : target_of "linux" "arm" Musl "linux-arm-musleabihf"
| LinuxArmGnu : target_of "linux" "arm" Gnu "linux-arm-gnueabihf"
| LinuxRiscvMusl : target_of "linux" "riscv64" Musl "linux-riscv64-musl"
| LinuxRiscvGnu : target_of "linux" "riscv64" Gnu "linux-riscv64-gnu"
| LinuxS390 c : target_of "linux" "s390x" c "linux-s390x-gnu".
(** The targets a machine can use: its own, and on macOS the universal one *)
Definition fits {L E} (includes : string -> string -> bool) (m : machine L E) (target : string) : Prop :=
  (exists c, c_library includes m c /\ target_of (platform m) (arch m) c target) \/
  (platform m = "darwin" /\ target = "darwin-universal").
(** Where the library of a target is taken from *)
Definition source {L E} (m : machine L E) (target : string) : string :=
  if exists_file m ("runtime." ++ target ++ ".node") then "./runtime." ++ target ++ ".node" else "@celerity-sdk/runtime-" ++ target.
(** npm installs a package on a machine when its "os", "cpu" and "libc" are those of the machine. *)
Definition libc_name (c : clib) : string := match c with Gnu => "glibc" | Musl => "musl" end.
Definition installed_on {L E} (includes : string -> string -> bool) (p : package) (m : machine L E) : Prop :=
  p_os p = platform m /\ p_cpu p = arch m /\
  match p_libc p with None => True | Some l => exists c, c_library includes m c /\ l = libc_name c end.
