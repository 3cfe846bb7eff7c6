(** Loading the native library of the Node.js SDK, /repo/libs/runtime/sdk/node/index.js. *)
From Verif Require Import Base.
Open Scope string_scope.

(** What a script sees of a machine: [process.platform], [process.arch], what [existsSync] says of
    a file beside the script, and what [require] gives: a library or the error it throws. *)
Section Load.
Variables (Lib Err : Type).
(** What index.js 1-29 looks at: platform, processor, files, packages, the C library *)
Record machine := {
  platform : string;
  arch : string;
  glibc : option string;            (* glibcVersionRuntime of the report *)
  report : bool;                    (* process.report.getReport is a function *)
  ldd : option string;              (* the text of the file [which ldd] names, if it can be read *)
  exists_file : string -> bool;
  require : string -> Lib + Err }.
Variable includes : string -> string -> bool.   (* String.prototype.includes *)

(** index.js 303-313 *)
Inductive outcome := Loaded (l : Lib) | Thrown (e : Err) | Unsupported (message : string).

(** index.js 17-29; an empty version is falsy too *)
Definition is_musl (m : machine) : bool :=
  if report m then match glibc m with Some v => String.eqb v "" | None => true end
  else match ldd m with Some t => includes t "musl" | None => true end.
(** The same block for every target, as in index.js 36-46: the file beside the script if there is one, else the package *)
Definition load (m : machine) (target : string) : Lib + Err :=
  if exists_file m ("runtime." ++ target ++ ".node") then require m ("./runtime." ++ target ++ ".node")
  else require m ("@celerity-sdk/runtime-" ++ target).
(** The error of a block is kept and thrown at the end (303-308). *)
Definition block (m : machine) (target : string) : outcome :=
  match load m target with inl l => Loaded l | inr e => Thrown e end.

(** index.js 32-308 *)
Definition native (m : machine) : outcome :=
  let p := platform m in let a := arch m in
  if String.eqb p "android" then
    if String.eqb a "arm64" then block m "android-arm64"
    else if String.eqb a "arm" then block m "android-arm-eabi"
    else Unsupported ("Unsupported architecture on Android " ++ a)
  else if String.eqb p "win32" then
    if String.eqb a "x64" then block m "win32-x64-msvc"
    else if String.eqb a "ia32" then block m "win32-ia32-msvc"
    else if String.eqb a "arm64" then block m "win32-arm64-msvc"
    else Unsupported ("Unsupported architecture on Windows: " ++ a)
  else if String.eqb p "darwin" then
    match load m "darwin-universal" with
    | inl l => Loaded l
    | inr _ =>
        if String.eqb a "x64" then block m "darwin-x64"
        else if String.eqb a "arm64" then block m "darwin-arm64"
        else Unsupported ("Unsupported architecture on macOS: " ++ a)
    end
  else if String.eqb p "freebsd" then
    if String.eqb a "x64" then block m "freebsd-x64"
    else Unsupported ("Unsupported architecture on FreeBSD: " ++ a)
  else if String.eqb p "linux" then
    if String.eqb a "x64" then block m (if is_musl m then "linux-x64-musl" else "linux-x64-gnu")
    else if String.eqb a "arm64" then block m (if is_musl m then "linux-arm64-musl" else "linux-arm64-gnu")
    else if String.eqb a "arm" then block m (if is_musl m then "linux-arm-musleabihf" else "linux-arm-gnueabihf")
    else if String.eqb a "riscv64" then block m (if is_musl m then "linux-riscv64-musl" else "linux-riscv64-gnu")
    else if String.eqb a "s390x" then block m "linux-s390x-gnu"
    else Unsupported ("Unsupported architecture on Linux: " ++ a)
  else Unsupported ("Unsupported OS: " ++ p ++ ", architecture: " ++ a).
End Load.
Arguments platform {Lib Err}. Arguments arch {Lib Err}. Arguments glibc {Lib Err}. Arguments report {Lib Err}. Arguments ldd {Lib Err}.
Arguments exists_file {Lib Err}. Arguments require {Lib Err}.
Arguments Loaded {Lib Err}. Arguments Thrown {Lib Err}. Arguments Unsupported {Lib Err}.
Arguments native {Lib Err}. Arguments is_musl {Lib Err}. Arguments load {Lib Err}. Arguments Build_machine {Lib Err}.

(** The packages the project publishes, npm/*/package.json: the name without "@celerity-sdk/runtime-",
    "os", "cpu" and "libc" (each list has one element). npm/*/package.json 1-30. *)
Record package := { p_target : string; p_os : string; p_cpu : string; p_libc : option string }.
(** npm/*/package.json *)
Definition published : list package :=
  [ Build_package "darwin-arm64" "darwin" "arm64" None;
    Build_package "darwin-x64" "darwin" "x64" None;
    Build_package "freebsd-x64" "freebsd" "x64" None;
    Build_package "linux-arm64-gnu" "linux" "arm64" (Some "glibc");
    Build_package "linux-arm64-musl" "linux" "arm64" (Some "musl");
    Build_package "linux-x64-gnu" "linux" "x64" (Some "glibc");
    Build_package "linux-x64-musl" "linux" "x64" (Some "musl");
    Build_package "win32-arm64-msvc" "win32" "arm64" None;
    Build_package "win32-x64-msvc" "win32" "x64" None ].
