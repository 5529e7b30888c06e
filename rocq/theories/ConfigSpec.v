(** What the macros of config.hpp are supposed to be, in terms of the macros the compiler predefines. *)
From Coq Require Import String.
From Verif Require Import Base ConfigModel.
Local Open Scope string_scope.
Local Open Scope Z_scope.

(** The names that belong to config.hpp. *)
Definition own (n : string) : Prop := prefix "CFG_" n = true \/ n = "DLLEXPORT" \/ n = "UTKI_CPP_STANDARD".
Definition absent (e : env) (n : string) : Prop := lookup e n = None.
Definition present (e : env) (n : string) : Prop := lookup e n <> None.

(** [stands_for e n v]: in a condition the name [n] is the number [v]; macros are followed, and a
    name that is not a macro is 0. *)
Inductive stands_for (e : env) : string -> Z -> Prop :=
| sf_none n : lookup e n = None -> stands_for e n 0
| sf_int n v : lookup e n = Some (Int v) -> stands_for e n v
| sf_name n m v : lookup e n = Some (Name m) -> stands_for e m v -> stands_for e n v.
(** The same for a macro that ends in a number. *)
Inductive is_number (e : env) : string -> Z -> Prop :=
| num_int n v : lookup e n = Some (Int v) -> is_number e n v
| num_name n m v : lookup e n = Some (Name m) -> is_number e m v -> is_number e n v.

(** What is asked of the macros in force before: none is one of config.hpp or refers to one, and
    those that are compared with numbers are numbers if they are macros at all. *)
Definition compared : list string :=
  ["TARGET_OS_IPHONE"; "TARGET_IPHONE_SIMULATOR"; "_MSC_VER"; "_MSVC_LANG"; "__cplusplus"; "_M_IX86";
   "__BYTE_ORDER__"; "__FLOAT_WORD_ORDER__"; "__ORDER_BIG_ENDIAN__"; "__ORDER_LITTLE_ENDIAN__"].
Definition predefined (e : env) : Prop :=
  (forall n, own n -> absent e n) /\
  (forall n m, lookup e n = Some (Name m) -> ~ own m) /\
  (forall n, In n compared -> exists v, stands_for e n v).

(** [classified e rows d x]: [x] belongs to the first row one of whose macros is defined; without
    such a row it is [d]. *)
Inductive classified {A} (e : env) : list (list string * A) -> A -> A -> Prop :=
| cl_default d : classified e [] d d
| cl_here ns n a rows d : In n ns -> present e n -> classified e ((ns, a) :: rows) d a
| cl_next ns a rows d x : (forall n, In n ns -> absent e n) -> classified e rows d x -> classified e ((ns, a) :: rows) d x.

(** Operating system: 1 Linux, 2 Windows, 3 Apple, 4 other Unix, 0 unknown. *)
Definition os_rows : list (list string * Z) :=
  [(["__linux__"], 1); (["_WIN32"; "WIN32"], 2); (["__APPLE__"], 3); (["__unix"; "__unix__"], 4)].
(** Name: 1 macOS, 2 iOS, 3 Android, 4 Solaris, 5 FreeBSD, 6 Emscripten, 0 none of these. *)
Definition os_name (e : env) (os name : Z) : Prop :=
  os = 1 /\ classified e [(["__ANDROID__"], 3)] 0 name \/
  (os = 2 \/ os = 0) /\ name = 0 \/
  os = 3 /\ (exists a b, stands_for e "TARGET_OS_IPHONE" a /\ stands_for e "TARGET_IPHONE_SIMULATOR" b /\
    (a = 1 \/ b = 1 -> name = 2) /\ (a <> 1 -> b <> 1 -> name = 1)) \/
  os = 4 /\ classified e [(["sun"; "__sun"], 4); (["__FreeBSD__"], 5); (["__EMSCRIPTEN__"], 6)] 0 name.
(** The families the comments in config.hpp give for the names. *)
Definition family (name os : Z) : Prop :=
  (name = 1 \/ name = 2 -> os = 3) /\ (name = 3 -> os = 1) /\ (name = 4 \/ name = 5 \/ name = 6 -> os = 4).

(** Compiler: 2 MSVC, 3 clang, 1 gcc, 0 unknown. *)
Definition compiler_rows : list (list string * Z) :=
  [(["_MSC_VER"], 2); (["__clang__"], 3); (["__GNUC__"; "__GNUG__"], 1)].
(** Version of the MSVC tools: up to 1915, 1928, 1929, above. *)
Definition tools_version (ver t : Z) : Prop :=
  ver <= 1915 /\ t = 140 \/ 1916 <= ver <= 1928 /\ t = 141 \/ ver = 1929 /\ t = 142 \/ 1930 <= ver /\ t = 143.

(** Editions of C++ and the value of __cplusplus of the edition before. *)
Definition editions : list (Z * Z) := [(20, 201703); (17, 201402); (14, 201103); (11, 199711)].
(** The newest edition whose predecessor the value exceeds, 3 if there is none. *)
Definition edition (value c : Z) : Prop :=
  (exists before, In (c, before) editions /\ before < value /\
     forall c' before', In (c', before') editions -> before' < value -> c' <= c) \/
  c = 3 /\ forall c' before', In (c', before') editions -> value <= before'.

(** Processor (1 x86, 2 x86-64, 3 ARM, 4 WebAssembly, 0 unknown) and number of bits. *)
Definition gcc_rows : list (list string * (Z * Z)) :=
  [(["__i386__"], (1, 32)); (["__x86_64__"], (2, 64)); (["__arm__"], (3, 32)); (["__aarch64__"], (3, 64))].
Definition msvc_rows : list (list string * (Z * Z)) := [(["_M_IX86"], (1, 32)); (["_M_AMD64"; "_M_X64"], (2, 64))].
Definition cpu (e : env) (compiler name : Z) (c : Z * Z) : Prop :=
  (name = 6 -> c = (4, 32)) /\
  (name <> 6 -> compiler = 1 -> classified e gcc_rows (0, 0) c) /\
  (name <> 6 -> compiler = 2 -> classified e msvc_rows (0, 0) c) /\
  (name <> 6 -> compiler <> 1 -> compiler <> 2 -> c = (0, 0)).
(** Version of the processor. *)
Definition x86_rows : list (list string * Z) := [(["__i686__"], 6); (["__i586__"], 5); (["__i486__"], 4)].
Definition arm_rows : list (list string * Z) :=
  [(["__ARM_ARCH_7__"; "__ARM_ARCH_7A__"; "__ARM_ARCH_7R__"; "__ARM_ARCH_7M__"], 7);
   (["__ARM_ARCH_6T2__"; "__ARM_ARCH_6ZK__"; "__ARM_ARCH_6Z__"; "__ARM_ARCH_6K__"; "__ARM_ARCH_6J__"; "__ARM_ARCH_6__"], 6);
   (["__ARM_ARCH_5TEJ__"; "__ARM_ARCH_5TE__"; "__ARM_ARCH_5T__"; "__ARM_ARCH_5E__"; "__ARM_ARCH_5__"], 5);
   (["__ARM_ARCH_4T__"; "__ARM_ARCH_4__"], 4)].
Definition cpu_version (e : env) (compiler : Z) (c : Z * Z) (v : Z) : Prop :=
  (c = (1, 32) /\ compiler = 1 -> classified e x86_rows 3 v) /\
  (c = (1, 32) /\ compiler = 2 -> exists m, stands_for e "_M_IX86" m /\
     (m = 600 -> v = 6) /\ (m = 500 -> v = 5) /\ (m = 400 -> v = 4) /\ (~ In m [400; 500; 600] -> v = 3)) /\
  (c = (3, 32) -> classified e arm_rows 0 v) /\
  (c = (3, 64) -> v = 8) /\
  (c = (2, 64) \/ c = (0, 0) -> v = 0).
(** Version of the Thumb instruction set, if there is one. *)
Definition thumb (e : env) (t : option Z) : Prop := classified e [(["__thumb2__"], Some 2); (["__thumb__"], Some 1)] None t.

(** Byte order. *)
Definition big_macros : list string :=
  ["__BIG_ENDIAN__"; "__ARMEB__"; "__THUMBEB__"; "__AARCH64EB__"; "_MIPSEB"; "__MIPSEB"; "__MIPSEB__"].
Definition little_macros : list string :=
  ["__LITTLE_ENDIAN__"; "__ARMEL__"; "__THUMBEL__"; "__AARCH64EL__"; "_MIPSEL"; "__MIPSEL"; "__MIPSEL__"].
(** The order macro [order] exists and is the order of bytes or of the words of floating point
    numbers, or one of the other indications is there. *)
Definition indicated (e : env) (order : string) (others : list string) : Prop :=
  (present e order /\ exists o, stands_for e order o /\ (stands_for e "__BYTE_ORDER__" o \/ stands_for e "__FLOAT_WORD_ORDER__" o)) \/
  exists n, In n others /\ present e n.
(** 1 little, 2 big, 0 unknown. *)
Definition endianness (e : env) (os name o : Z) : Prop :=
  (name = 6 \/ os = 2 -> o = 1) /\
  (name <> 6 -> os <> 2 ->
    (o = 2 <-> indicated e "__ORDER_BIG_ENDIAN__" big_macros) /\
    (o = 1 <-> indicated e "__ORDER_LITTLE_ENDIAN__" little_macros /\ ~ indicated e "__ORDER_BIG_ENDIAN__" big_macros) /\
    In o [0; 1; 2]).

(** The numbers to compare with. *)
Definition constants : list (string * Z) :=
  [("CFG_OS_UNKNOWN", 0); ("CFG_OS_LINUX", 1); ("CFG_OS_WINDOWS", 2); ("CFG_OS_MACOSX", 3); ("CFG_OS_UNIX", 4);
   ("CFG_OS_NAME_UNKNOWN", 0); ("CFG_OS_NAME_MACOSX", 1); ("CFG_OS_NAME_IOS", 2); ("CFG_OS_NAME_ANDROID", 3);
   ("CFG_OS_NAME_SOLARIS", 4); ("CFG_OS_NAME_FREEBSD", 5); ("CFG_OS_NAME_EMSCRIPTEN", 6);
   ("CFG_COMPILER_UNKNOWN", 0); ("CFG_COMPILER_GCC", 1); ("CFG_COMPILER_MSVC", 2); ("CFG_COMPILER_CLANG", 3);
   ("CFG_CPU_UNKNOWN", 0); ("CFG_CPU_X86", 1); ("CFG_CPU_X86_64", 2); ("CFG_CPU_ARM", 3); ("CFG_CPU_WASM", 4);
   ("CFG_ENDIANNESS_UNKNOWN", 0); ("CFG_ENDIANNESS_LITTLE", 1); ("CFG_ENDIANNESS_BIG", 2)].

(** What is asked of windows.h: it is not rejected, and it leaves the include guards of winsock.h
    alone when they are defined, since it does not include that header then. *)
Definition guards : list string := ["_WINSOCKAPI_"; "_WINSOCK_H"].
Definition polite (header : string -> env -> option env) : Prop :=
  forall e, (forall g, In g guards -> present e g) ->
  exists e', header "windows.h" e = Some e' /\ forall g, In g guards -> lookup e' g = lookup e g.
(** An include guard as headers define them: not defined, empty, or a number. *)
Definition plain (e : env) (g : string) : Prop := match lookup e g with None | Some Empty | Some (Int _) => True | _ => False end.
