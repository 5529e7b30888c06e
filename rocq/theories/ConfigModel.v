(** Model of src/utki/config.hpp and src/utki/windows.hpp: a small C preprocessor and the directives
    of the two headers.

    A macro is object-like. Its replacement is empty, one integer literal, one identifier, or other
    text. Integer literals are mathematical integers (all of them fit intmax_t). A directive
    the preprocessor has to reject gives [None]: a comparison whose operand is empty or other text,
    or the definition of a macro that has a different replacement already. Replacements such as
    (1 + 2), which would be fine in a comparison, are rejected as well. *)
From Coq Require Import String.
From Verif Require Import Base.
Local Open Scope string_scope.
Local Open Scope Z_scope.

Inductive body := Empty | Int (v : Z) | Name (n : string) | Text (t : string).
(** Macros in force. *)
Definition env := list (string * body).
Fixpoint lookup (e : env) (n : string) : option body :=
  match e with
  | [] => None
  | (m, b) :: e => if String.eqb n m then Some b else lookup e n
  end.
Fixpoint undef (e : env) (n : string) : env :=
  match e with
  | [] => []
  | (m, b) :: e => if String.eqb n m then undef e n else (m, b) :: undef e n
  end.
Definition defined (e : env) (n : string) : bool := match lookup e n with Some _ => true | None => false end.

(** The token a name is replaced by in the end. A name is not replaced again within its own
    replacement. A name left over at the end counts as 0. *)
Fixpoint expand (fuel : nat) (e : env) (n : string) : option body :=
  match fuel with
  | O => None
  | S fuel =>
      match lookup e n with
      | None => Some (Int 0)
      | Some (Name m) => expand fuel (undef e n) m
      | Some b => Some b
      end
  end.
Definition expansion (e : env) (n : string) : option body := expand (S (length e)) e n.

(** Conditions of #if. *)
Inductive expr :=
| ILit (v : Z) | IName (n : string)
| Plus0 (n : string) (* (n + 0) *)
| Defined (n : string)
| Eq (a b : expr) | Lt (a b : expr) | Gt (a b : expr)
| Or (a b : expr) | And (a b : expr) | Not (a : expr).
Definition of_bool (b : bool) : Z := if b then 1 else 0.
Definition lift2 (f : Z -> Z -> Z) (a b : option Z) : option Z :=
  match a, b with Some a, Some b => Some (f a b) | _, _ => None end.
Fixpoint eval (e : env) (c : expr) : option Z :=
  match c with
  | ILit v => Some v
  | IName n => match expansion e n with Some (Int v) => Some v | _ => None end
  | Plus0 n => match expansion e n with Some (Int v) => Some v | Some Empty => Some 0 | _ => None end
  | Defined n => Some (of_bool (defined e n))
  | Eq a b => lift2 (fun x y => of_bool (x =? y)) (eval e a) (eval e b)
  | Lt a b => lift2 (fun x y => of_bool (x <? y)) (eval e a) (eval e b)
  | Gt a b => lift2 (fun x y => of_bool (y <? x)) (eval e a) (eval e b)
  | Or a b => lift2 (fun x y => of_bool (negb (x =? 0) || negb (y =? 0))) (eval e a) (eval e b)
  | And a b => lift2 (fun x y => of_bool (negb (x =? 0) && negb (y =? 0))) (eval e a) (eval e b)
  | Not a => match eval e a with Some x => Some (of_bool (x =? 0)) | None => None end
  end.

(** Directives, each followed by the rest of the file. [Include] processes another header. *)
Inductive block :=
| Done
| Define (n : string) (b : body) (k : block)
| Undef (n : string) (k : block)
| Include (file : string) (k : block)
| If (c : expr) (t f : block) (k : block).

Definition body_eqb (a b : body) : bool :=
  match a, b with
  | Empty, Empty => true
  | Int v, Int w => v =? w
  | Name n, Name m => String.eqb n m
  | Text n, Text m => String.eqb n m
  | _, _ => false
  end.

Section Run.
(** What including a header does to the macros. *)
Variable header : string -> env -> option env.
Fixpoint run (p : block) (e : env) : option env :=
  match p with
  | Done => Some e
  | Define n b k =>
      match lookup e n with
      | None => run k ((n, b) :: e)
      | Some b' => if body_eqb b b' then run k e else None
      end
  | Undef n k => run k (undef e n)
  | Include f k => match header f e with Some e => run k e | None => None end
  | If c t f k =>
      match eval e c with
      | None => None
      | Some x => match run (if x =? 0 then f else t) e with Some e => run k e | None => None end
      end
  end.
End Run.

(** Any of the macros is defined. *)
Fixpoint any_defined (ns : list string) : expr :=
  match ns with
  | [] => ILit 0
  | [n] => Defined n
  | n :: ns => Or (Defined n) (any_defined ns)
  end.

(** config.hpp:36-63 *)
Definition os_numbers (k : block) : block :=
  Define "CFG_OS_UNKNOWN" (Int 0) (Define "CFG_OS_LINUX" (Int 1) (Define "CFG_OS_WINDOWS" (Int 2)
  (Define "CFG_OS_MACOSX" (Int 3) (Define "CFG_OS_UNIX" (Int 4)
  (Define "CFG_OS_NAME_UNKNOWN" (Int 0) (Define "CFG_OS_NAME_MACOSX" (Int 1) (Define "CFG_OS_NAME_IOS" (Int 2)
  (Define "CFG_OS_NAME_ANDROID" (Int 3) (Define "CFG_OS_NAME_SOLARIS" (Int 4) (Define "CFG_OS_NAME_FREEBSD" (Int 5)
  (Define "CFG_OS_NAME_EMSCRIPTEN" (Int 6) k))))))))))).

Definition os_is (os name : string) (k : block) : block :=
  Define "CFG_OS" (Name os) (Define "CFG_OS_NAME" (Name name) k).
(** config.hpp:65-114 *)
Definition os_part (k : block) : block :=
  If (Defined "__linux__")
    (Define "CFG_OS" (Name "CFG_OS_LINUX")
      (If (Defined "__ANDROID__")
        (Define "CFG_OS_NAME" (Name "CFG_OS_NAME_ANDROID") Done)
        (Define "CFG_OS_NAME" (Name "CFG_OS_NAME_UNKNOWN") Done) Done))
  (If (any_defined ["_WIN32"; "WIN32"])
    (os_is "CFG_OS_WINDOWS" "CFG_OS_NAME_UNKNOWN" Done)
  (If (Defined "__APPLE__")
    (Define "CFG_OS" (Name "CFG_OS_MACOSX")
      (Include "TargetConditionals.h" (Include "Availability.h"
      (If (Or (Eq (IName "TARGET_OS_IPHONE") (ILit 1)) (Eq (IName "TARGET_IPHONE_SIMULATOR") (ILit 1)))
        (Define "CFG_OS_NAME" (Name "CFG_OS_NAME_IOS")
        (Define "CFG_IOS_DEPLOYMENT_TARGET" (Name "__IPHONE_OS_VERSION_MIN_REQUIRED") Done))
        (Define "CFG_OS_NAME" (Name "CFG_OS_NAME_MACOSX")
        (Define "CFG_MACOSX_DEPLOYMENT_TARGET" (Name "__MAC_OS_X_VERSION_MIN_REQUIRED") Done)) Done))))
  (If (any_defined ["__unix"; "__unix__"])
    (Define "CFG_OS" (Name "CFG_OS_UNIX")
      (If (any_defined ["sun"; "__sun"])
        (Define "CFG_OS_NAME" (Name "CFG_OS_NAME_SOLARIS") Done)
      (If (Defined "__FreeBSD__")
        (Define "CFG_OS_NAME" (Name "CFG_OS_NAME_FREEBSD") Done)
      (If (Defined "__EMSCRIPTEN__")
        (Define "CFG_OS_NAME" (Name "CFG_OS_NAME_EMSCRIPTEN") Done)
        (Define "CFG_OS_NAME" (Name "CFG_OS_NAME_UNKNOWN") Done) Done) Done) Done))
    (os_is "CFG_OS_UNKNOWN" "CFG_OS_NAME_UNKNOWN" Done) Done) Done) Done) k.

(** config.hpp:120-150 *)
Definition compiler_part (k : block) : block :=
  Define "CFG_COMPILER_UNKNOWN" (Int 0) (Define "CFG_COMPILER_GCC" (Int 1)
  (Define "CFG_COMPILER_MSVC" (Int 2) (Define "CFG_COMPILER_CLANG" (Int 3)
  (If (Defined "_MSC_VER")
    (Define "CFG_COMPILER" (Name "CFG_COMPILER_MSVC")
      (If (Lt (IName "_MSC_VER") (ILit 1916)) (Define "CFG_COMPILER_MSVC_TOOLS_V" (Int 140) Done)
      (If (Lt (IName "_MSC_VER") (ILit 1929)) (Define "CFG_COMPILER_MSVC_TOOLS_V" (Int 141) Done)
      (If (Lt (IName "_MSC_VER") (ILit 1930)) (Define "CFG_COMPILER_MSVC_TOOLS_V" (Int 142) Done)
        (Define "CFG_COMPILER_MSVC_TOOLS_V" (Int 143) Done) Done) Done) Done))
  (If (Defined "__clang__")
    (Define "CFG_COMPILER" (Name "CFG_COMPILER_CLANG") Done)
  (If (any_defined ["__GNUC__"; "__GNUG__"])
    (Define "CFG_COMPILER" (Name "CFG_COMPILER_GCC")
    (Define "CFG_COMPILER_VERSION_MAJOR" (Name "__GNUC__")
    (Define "CFG_COMPILER_VERSION_MINOR" (Name "__GNUC_MINOR__")
    (Define "CFG_COMPILER_VERSION_PATCH" (Name "__GNUC_PATCHLEVEL__") Done))))
    (Define "CFG_COMPILER" (Name "CFG_COMPILER_UNKNOWN") Done) Done) Done) k)))).

(** config.hpp:159-175 *)
Definition standard_part (k : block) : block :=
  If (Eq (IName "CFG_COMPILER") (IName "CFG_COMPILER_MSVC"))
    (Define "UTKI_CPP_STANDARD" (Name "_MSVC_LANG") Done)
    (Define "UTKI_CPP_STANDARD" (Name "__cplusplus") Done)
  (If (Gt (IName "UTKI_CPP_STANDARD") (ILit 201703)) (Define "CFG_CPP" (Int 20) Done)
  (If (Gt (IName "UTKI_CPP_STANDARD") (ILit 201402)) (Define "CFG_CPP" (Int 17) Done)
  (If (Gt (IName "UTKI_CPP_STANDARD") (ILit 201103)) (Define "CFG_CPP" (Int 14) Done)
  (If (Gt (IName "UTKI_CPP_STANDARD") (ILit 199711)) (Define "CFG_CPP" (Int 11) Done)
    (Define "CFG_CPP" (Int 3) Done) Done) Done) Done) k).

Definition cpu_is (cpu : string) (bits : Z) (k : block) : block :=
  Define "CFG_CPU" (Name cpu) (Define "CFG_CPU_BITS" (Int bits) k).
Definition version_is (v : Z) : block := Define "CFG_CPU_VERSION" (Int v) Done.
(** config.hpp:192-246 *)
Definition gcc_cpu : block :=
  If (Defined "__i386__")
    (cpu_is "CFG_CPU_X86" 32
      (If (Defined "__i686__") (version_is 6)
      (If (Defined "__i586__") (version_is 5)
      (If (Defined "__i486__") (version_is 4) (version_is 3) Done) Done) Done))
  (If (Defined "__x86_64__")
    (cpu_is "CFG_CPU_X86_64" 64 (version_is 0))
  (If (Defined "__arm__")
    (cpu_is "CFG_CPU_ARM" 32
      (If (Defined "__thumb2__") (Define "CFG_CPU_ARM_THUMB_VERSION" (Int 2) Done)
      (If (Defined "__thumb__") (Define "CFG_CPU_ARM_THUMB_VERSION" (Int 1) Done) Done Done)
      (If (any_defined ["__ARM_ARCH_7__"; "__ARM_ARCH_7A__"; "__ARM_ARCH_7R__"; "__ARM_ARCH_7M__"]) (version_is 7)
      (If (any_defined ["__ARM_ARCH_6T2__"; "__ARM_ARCH_6ZK__"; "__ARM_ARCH_6Z__"; "__ARM_ARCH_6K__"; "__ARM_ARCH_6J__"; "__ARM_ARCH_6__"]) (version_is 6)
      (If (any_defined ["__ARM_ARCH_5TEJ__"; "__ARM_ARCH_5TE__"; "__ARM_ARCH_5T__"; "__ARM_ARCH_5E__"; "__ARM_ARCH_5__"]) (version_is 5)
      (If (any_defined ["__ARM_ARCH_4T__"; "__ARM_ARCH_4__"]) (version_is 4) (version_is 0) Done) Done) Done) Done)))
  (If (Defined "__aarch64__")
    (cpu_is "CFG_CPU_ARM" 64 (version_is 8))
    (cpu_is "CFG_CPU_UNKNOWN" 0 (version_is 0)) Done) Done) Done) Done.
(** config.hpp:249-272 *)
Definition msvc_cpu : block :=
  If (Defined "_M_IX86")
    (cpu_is "CFG_CPU_X86" 32
      (If (Eq (IName "_M_IX86") (ILit 600)) (version_is 6)
      (If (Eq (IName "_M_IX86") (ILit 500)) (version_is 5)
      (If (Eq (IName "_M_IX86") (ILit 400)) (version_is 4) (version_is 3) Done) Done) Done))
  (If (any_defined ["_M_AMD64"; "_M_X64"])
    (cpu_is "CFG_CPU_X86_64" 64 (version_is 0))
    (cpu_is "CFG_CPU_UNKNOWN" 0 (version_is 0)) Done) Done.
(** config.hpp:181-277 *)
Definition cpu_part (k : block) : block :=
  Define "CFG_CPU_UNKNOWN" (Int 0) (Define "CFG_CPU_X86" (Int 1) (Define "CFG_CPU_X86_64" (Int 2)
  (Define "CFG_CPU_ARM" (Int 3) (Define "CFG_CPU_WASM" (Int 4)
  (If (Eq (IName "CFG_OS_NAME") (IName "CFG_OS_NAME_EMSCRIPTEN"))
    (cpu_is "CFG_CPU_WASM" 32 Done)
  (If (Eq (IName "CFG_COMPILER") (IName "CFG_COMPILER_GCC")) gcc_cpu
  (If (Eq (IName "CFG_COMPILER") (IName "CFG_COMPILER_MSVC")) msvc_cpu
    (cpu_is "CFG_CPU_UNKNOWN" 0 (version_is 0)) Done) Done) k))))).

(** config.hpp:283-298; the pragmas have no effect on macros *)
Definition export_part (k : block) : block :=
  If (Eq (IName "CFG_OS") (IName "CFG_OS_WINDOWS"))
    (If (Eq (IName "CFG_COMPILER") (IName "CFG_COMPILER_MSVC"))
      (If (Defined "_USRDLL")
        (Define "DLLEXPORT" (Text "__declspec(dllexport)") Done)
        (Define "DLLEXPORT" (Text "__declspec(dllimport)") Done) Done)
      (Define "DLLEXPORT" Empty Done) Done)
    (Define "DLLEXPORT" Empty Done) k.

(** config.hpp:317-331 *)
Definition order_test (order : string) (others : list string) : expr :=
  Or (And (Defined order) (Or (Eq (IName "__BYTE_ORDER__") (IName order)) (Eq (IName "__FLOAT_WORD_ORDER__") (IName order))))
     (any_defined others).
Definition byte_order : block :=
  If (order_test "__ORDER_BIG_ENDIAN__"
       ["__BIG_ENDIAN__"; "__ARMEB__"; "__THUMBEB__"; "__AARCH64EB__"; "_MIPSEB"; "__MIPSEB"; "__MIPSEB__"])
    (Define "CFG_ENDIANNESS" (Name "CFG_ENDIANNESS_BIG") Done)
  (If (order_test "__ORDER_LITTLE_ENDIAN__"
       ["__LITTLE_ENDIAN__"; "__ARMEL__"; "__THUMBEL__"; "__AARCH64EL__"; "_MIPSEL"; "__MIPSEL"; "__MIPSEL__"])
    (Define "CFG_ENDIANNESS" (Name "CFG_ENDIANNESS_LITTLE") Done)
    (Define "CFG_ENDIANNESS" (Name "CFG_ENDIANNESS_UNKNOWN") Done) Done) Done.
(** config.hpp:304-333 *)
Definition endianness_part : block :=
  Define "CFG_ENDIANNESS_UNKNOWN" (Int 0) (Define "CFG_ENDIANNESS_LITTLE" (Int 1) (Define "CFG_ENDIANNESS_BIG" (Int 2)
  (If (Eq (IName "CFG_OS_NAME") (IName "CFG_OS_NAME_EMSCRIPTEN"))
    (Define "CFG_ENDIANNESS" (Name "CFG_ENDIANNESS_LITTLE") Done)
  (If (Eq (IName "CFG_OS") (IName "CFG_OS_WINDOWS"))
    (Define "CFG_ENDIANNESS" (Name "CFG_ENDIANNESS_LITTLE") Done)
    byte_order Done) Done))).

(** config.hpp:30-335 *)
Definition config : block :=
  os_numbers (os_part (compiler_part (standard_part (cpu_part (export_part endianness_part))))).

(** The two headers of the Apple SDK that config.hpp includes define macros such as
    TARGET_OS_IPHONE. These are taken to be among the macros in force from the start, so that
    including the headers changes nothing. *)
Definition sdk_header (file : string) (e : env) : option env := Some e.
Definition process (e : env) : option env := run sdk_header config e.

(** windows.hpp:39-71, compiled when CFG_OS is CFG_OS_WINDOWS. *)
Definition restore (guard : string) (k : block) : block :=
  If (Plus0 guard) (If (Eq (IName guard) (ILit 1234567890)) (Undef guard Done) Done Done) Done k.
Definition drop (n : string) (k : block) : block := If (Defined n) (Undef n Done) Done k.
Definition windows : block :=
  If (Not (Defined "_WINSOCKAPI_")) (Define "_WINSOCKAPI_" (Int 1234567890) Done) Done
  (If (Not (Defined "_WINSOCK_H")) (Define "_WINSOCK_H" (Int 1234567890) Done) Done
  (Include "windows.h"
  (restore "_WINSOCKAPI_" (restore "_WINSOCK_H"
  (drop "max" (drop "min" (drop "DELETE" Done))))))).
(** windows.hpp:31-73 *)
Definition windows_hpp : block :=
  Include "config.hpp" (If (Eq (IName "CFG_OS") (IName "CFG_OS_WINDOWS")) windows Done Done).
