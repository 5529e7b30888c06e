(** Properties C102 to C106. *)
From Coq Require Import String.
From Verif Require Import Base ConfigModel ConfigSpec ConfigProofs.
Local Open Scope string_scope.
Local Open Scope Z_scope.

(** Compilers, for the concrete cases. *)
Definition gcc_linux : env :=
  [("__cplusplus", Int 201703); ("__GNUC__", Int 12); ("__GNUC_MINOR__", Int 2); ("__GNUC_PATCHLEVEL__", Int 0); ("__GNUG__", Int 12);
   ("__linux__", Int 1); ("__unix__", Int 1); ("__x86_64__", Int 1); ("__ORDER_LITTLE_ENDIAN__", Int 1234); ("__ORDER_BIG_ENDIAN__", Int 4321);
   ("__BYTE_ORDER__", Name "__ORDER_LITTLE_ENDIAN__"); ("__FLOAT_WORD_ORDER__", Name "__ORDER_LITTLE_ENDIAN__"); ("linux", Int 1)].
Definition msvc_windows : env :=
  [("_MSC_VER", Int 1929); ("_MSVC_LANG", Int 202002); ("__cplusplus", Int 199711); ("_WIN32", Int 1); ("_WIN64", Int 1); ("_M_X64", Int 100); ("_M_AMD64", Int 100); ("_USRDLL", Empty)].
Definition emscripten : env :=
  [("__clang__", Int 1); ("__GNUC__", Int 4); ("__cplusplus", Int 202002); ("__EMSCRIPTEN__", Int 1); ("__unix__", Int 1); ("__wasm32__", Int 1)].
Definition clang_mac : env :=
  [("__clang__", Int 1); ("__GNUC__", Int 4); ("__cplusplus", Int 201402); ("__APPLE__", Int 1); ("TARGET_OS_IPHONE", Int 0); ("TARGET_OS_MAC", Int 1);
   ("__x86_64__", Int 1); ("__LITTLE_ENDIAN__", Int 1)].
Definition gcc_arm_android : env :=
  [("__cplusplus", Int 201103); ("__GNUC__", Int 4); ("__linux__", Empty); ("__ANDROID__", Empty); ("__arm__", Int 1); ("__thumb__", Int 1);
   ("__ARM_ARCH_7A__", Int 1); ("__ARMEL__", Int 1)].
Definition gcc_mixed : env :=
  [("__cplusplus", Int 201703); ("__GNUC__", Int 12); ("__linux__", Int 1); ("__arm__", Int 1); ("__ORDER_LITTLE_ENDIAN__", Int 1234); ("__ORDER_BIG_ENDIAN__", Int 4321);
   ("__BYTE_ORDER__", Name "__ORDER_LITTLE_ENDIAN__"); ("__FLOAT_WORD_ORDER__", Name "__ORDER_BIG_ENDIAN__")].
Definition compilers : list env := [gcc_linux; msvc_windows; emscripten; clang_mac; gcc_arm_android; gcc_mixed].
Definition values (e : env) (ns : list string) : option (list (option body)) := option_map (fun e => map (expansion e) ns) (process e).

(** C102. The header is never rejected and changes no macro that is not its own. All the numbers to compare with are there. *)
Theorem C102_accepted : forall e, predefined e -> exists e', process e = Some e' /\ (forall n, ~ own n -> lookup e' n = lookup e n) /\
  forall n v, In (n, v) constants -> lookup e' n = Some (Int v).
Proof.
  intros e P. destruct (process_ok e P) as (e' & os & name & comp & std & c & o & R & F). exists e'. split; [exact R|].
  split; [exact (f_same _ _ _ _ _ _ _ _ F)|]. intros n v. exact (constants_ok e e' n v R).
Qed.
Print Assumptions C102_accepted.
(** CFG_OS and CFG_OS_NAME. *)
Theorem C102_os : forall e e', predefined e -> process e = Some e' -> exists os name,
  classified e os_rows 0 os /\ is_number e' "CFG_OS" os /\ os_name e os name /\ is_number e' "CFG_OS_NAME" name /\ family name os.
Proof.
  intros e e' P R. destruct (process_ok e P) as (e1 & os & name & comp & std & c & o & R1 & F). replace e1 with e' in F by congruence.
  destruct F. exists os, name. destruct (name_family e os name f_os f_name). auto.
Qed.
Print Assumptions C102_os.
(** CFG_COMPILER and what describes its version. *)
Theorem C102_compiler : forall e e', predefined e -> process e = Some e' -> exists comp,
  classified e compiler_rows 0 comp /\ is_number e' "CFG_COMPILER" comp /\
  (comp = 2 -> exists v t, stands_for e "_MSC_VER" v /\ tools_version v t /\ is_number e' "CFG_COMPILER_MSVC_TOOLS_V" t) /\
  (comp <> 2 -> absent e' "CFG_COMPILER_MSVC_TOOLS_V") /\
  (comp = 1 -> lookup e' "CFG_COMPILER_VERSION_MAJOR" = Some (Name "__GNUC__") /\
     lookup e' "CFG_COMPILER_VERSION_MINOR" = Some (Name "__GNUC_MINOR__") /\ lookup e' "CFG_COMPILER_VERSION_PATCH" = Some (Name "__GNUC_PATCHLEVEL__")) /\
  (comp <> 1 -> absent e' "CFG_COMPILER_VERSION_MAJOR" /\ absent e' "CFG_COMPILER_VERSION_MINOR" /\ absent e' "CFG_COMPILER_VERSION_PATCH").
Proof.
  intros e e' P R. destruct (process_ok e P) as (e1 & os & name & comp & std & c & o & R1 & F). replace e1 with e' in F by congruence.
  destruct F. exists comp. destruct f_tools, f_version. unfold absent. auto 10.
Qed.
Print Assumptions C102_compiler.
Example C102_cases : Forall predefined compilers /\
  map (fun e => values e ["CFG_OS"; "CFG_OS_NAME"; "CFG_COMPILER"; "CFG_COMPILER_MSVC_TOOLS_V"; "CFG_COMPILER_VERSION_MAJOR"]) compilers =
  [Some [Some (Int 1); Some (Int 0); Some (Int 1); Some (Int 0); Some (Int 12)]; Some [Some (Int 2); Some (Int 0); Some (Int 2); Some (Int 142); Some (Int 0)];
   Some [Some (Int 4); Some (Int 6); Some (Int 3); Some (Int 0); Some (Int 0)]; Some [Some (Int 3); Some (Int 1); Some (Int 3); Some (Int 0); Some (Int 0)];
   Some [Some (Int 1); Some (Int 3); Some (Int 1); Some (Int 0); Some (Int 4)]; Some [Some (Int 1); Some (Int 0); Some (Int 1); Some (Int 0); Some (Int 12)]].
Proof. split; [repeat (constructor; [apply predefinedb_ok; reflexivity|]); constructor|vm_compute; reflexivity]. Qed.

(** C103. CFG_CPP is the edition of the language, told from _MSVC_LANG with MSVC and from __cplusplus otherwise; *)
Theorem C103_edition : forall e e' comp, predefined e -> process e = Some e' -> classified e compiler_rows 0 comp ->
  exists v std, stands_for e (if comp =? 2 then "_MSVC_LANG" else "__cplusplus") v /\ edition v std /\ is_number e' "CFG_CPP" std.
Proof.
  intros e e' comp P R C. destruct (process_ok e P) as (e1 & os & name & comp' & std & c & o & R1 & F). replace e1 with e' in F by congruence.
  destruct F. rewrite (classified_fun _ _ _ _ _ C f_comp). destruct f_std as (v & A & B). exists v, std. auto.
Qed.
Print Assumptions C103_edition.
(** a later value never gives an earlier edition; *)
Theorem C103_monotone : forall v w c d, edition v c -> edition w d -> v <= w -> c <= d.
Proof. exact edition_mono. Qed.
Print Assumptions C103_monotone.
(** and it is never above 20: whatever the compiler, code under a condition such as CFG_CPP >= 26 is not compiled. *)
Theorem C103_at_most_20 : forall e e' k, predefined e -> process e = Some e' -> 20 < k ->
  (exists std, is_number e' "CFG_CPP" std /\ In std [3; 11; 14; 17; 20]) /\ eval e' (Lt (IName "CFG_CPP") (ILit k)) = Some 1.
Proof.
  intros e e' k P R K. destruct (process_ok e P) as (e1 & os & name & comp' & std & c & o & R1 & F). replace e1 with e' in F by congruence.
  destruct F. destruct f_std as (v & A & B). apply edition_values in B. split; [exists std; auto|]. exact (standard_below e e' std k R f_std_n B K).
Qed.
Print Assumptions C103_at_most_20.
Example C103_cases : map (fun e => values e ["CFG_CPP"]) compilers =
  [Some [Some (Int 17)]; Some [Some (Int 20)]; Some [Some (Int 20)]; Some [Some (Int 14)]; Some [Some (Int 11)]; Some [Some (Int 17)]] /\ edition 201703 17 /\ edition 201704 20.
Proof.
  split; [vm_compute; reflexivity|]. split; left.
  - exists 201402. split; [cbn; auto|]. split; [lia|]. intros c' b I L. cbn in I. repeat (destruct I as [I|I]; [injection I as <- <-; lia|]). destruct I.
  - exists 201703. split; [cbn; auto|]. split; [lia|]. intros c' b I L. cbn in I. repeat (destruct I as [I|I]; [injection I as <- <-; lia|]). destruct I.
Qed.

(** C104. CFG_CPU and CFG_CPU_BITS, CFG_CPU_VERSION, CFG_CPU_ARM_THUMB_VERSION. *)
Theorem C104_cpu : forall e e' comp name, predefined e -> process e = Some e' ->
  classified e compiler_rows 0 comp -> is_number e' "CFG_OS_NAME" name ->
  exists c, cpu e comp name c /\ In c [(0, 0); (1, 32); (2, 64); (3, 32); (3, 64); (4, 32)] /\
    is_number e' "CFG_CPU" (fst c) /\ is_number e' "CFG_CPU_BITS" (snd c) /\
    (name <> 6 -> exists v, cpu_version e comp c v /\ is_number e' "CFG_CPU_VERSION" v) /\
    (c = (3, 32) -> exists t, thumb e t /\ lookup e' "CFG_CPU_ARM_THUMB_VERSION" = option_map Int t) /\
    (c <> (3, 32) -> absent e' "CFG_CPU_ARM_THUMB_VERSION").
Proof.
  intros e e' comp name P R C N. destruct (process_ok e P) as (e1 & os' & name' & comp' & std & c & o & R1 & F). replace e1 with e' in F by congruence.
  destruct F. rewrite (classified_fun _ _ _ _ _ C f_comp), (stands_fun _ _ _ _ (number_stands _ _ _ N) (number_stands _ _ _ f_name_n)).
  exists c. destruct f_cpu_version as [_ V], f_thumb as [T1 T2]. split; [exact f_cpu|]. split; [exact (cpu_values e comp' name' c f_comp f_cpu)|]. auto 10.
Qed.
Print Assumptions C104_cpu.
(** CFG_CPU_VERSION, which every other system has, is not defined with Emscripten. *)
Theorem C104_version_refuted : forall e e', predefined e -> process e = Some e' -> is_number e' "CFG_OS_NAME" 6 -> absent e' "CFG_CPU_VERSION".
Proof.
  intros e e' P R N. destruct (process_ok e P) as (e1 & os' & name' & comp' & std & c & o & R1 & F). replace e1 with e' in F by congruence.
  destruct F. apply (proj1 f_cpu_version). exact (stands_fun _ _ _ _ (number_stands _ _ _ f_name_n) (number_stands _ _ _ N)).
Qed.
Print Assumptions C104_version_refuted.
(** With clang the processor is never recognised, except with Emscripten: CFG_CPU is CFG_CPU_UNKNOWN and CFG_CPU_BITS is 0 whatever it is. *)
Theorem C104_clang_refuted : forall e e' name, predefined e -> process e = Some e' -> present e "__clang__" -> absent e "_MSC_VER" ->
  is_number e' "CFG_OS_NAME" name -> name <> 6 -> is_number e' "CFG_CPU" 0 /\ is_number e' "CFG_CPU_BITS" 0.
Proof.
  intros e e' name P R C M N NE. destruct (process_ok e P) as (e1 & os' & name' & comp' & std & c & o & R1 & F). replace e1 with e' in F by congruence.
  destruct F. rewrite (stands_fun _ _ _ _ (number_stands _ _ _ N) (number_stands _ _ _ f_name_n)) in NE.
  assert (X : comp' = 3).
  { apply (classified_fun e compiler_rows 0 comp' 3 f_comp). apply cl_next; [intros n [<-|[]]; exact M|]. apply (cl_here e _ "__clang__"); [cbn; auto|exact C]. }
  destruct f_cpu as (_ & _ & _ & U). rewrite (U NE) in f_cpu_n, f_bits_n by lia. auto.
Qed.
Print Assumptions C104_clang_refuted.
Example C104_cases : map (fun e => values e ["CFG_CPU"; "CFG_CPU_BITS"; "CFG_CPU_VERSION"; "CFG_CPU_ARM_THUMB_VERSION"]) compilers =
  [Some [Some (Int 2); Some (Int 64); Some (Int 0); Some (Int 0)]; Some [Some (Int 2); Some (Int 64); Some (Int 0); Some (Int 0)];
   Some [Some (Int 4); Some (Int 32); Some (Int 0); Some (Int 0)]; Some [Some (Int 0); Some (Int 0); Some (Int 0); Some (Int 0)];
   Some [Some (Int 3); Some (Int 32); Some (Int 7); Some (Int 1)]; Some [Some (Int 3); Some (Int 32); Some (Int 0); Some (Int 0)]] /\
  present clang_mac "__x86_64__" /\ option_map (fun e => lookup e "CFG_CPU_VERSION") (process emscripten) = Some None.
Proof. split; [vm_compute; reflexivity|]. split; [discriminate|reflexivity]. Qed.

(** C105. CFG_ENDIANNESS and DLLEXPORT. *)
Theorem C105_endianness : forall e e' os name, predefined e -> process e = Some e' -> is_number e' "CFG_OS" os -> is_number e' "CFG_OS_NAME" name ->
  exists o, endianness e os name o /\ is_number e' "CFG_ENDIANNESS" o.
Proof.
  intros e e' os name P R O N. destruct (process_ok e P) as (e1 & os' & name' & comp' & std & c & o & R1 & F). replace e1 with e' in F by congruence.
  destruct F. rewrite (stands_fun _ _ _ _ (number_stands _ _ _ N) (number_stands _ _ _ f_name_n)), (stands_fun _ _ _ _ (number_stands _ _ _ O) (number_stands _ _ _ f_os_n)).
  exists o. auto.
Qed.
Print Assumptions C105_endianness.
Theorem C105_export : forall e e' os comp, predefined e -> process e = Some e' -> classified e os_rows 0 os -> classified e compiler_rows 0 comp ->
  (os = 2 /\ comp = 2 -> (present e "_USRDLL" -> lookup e' "DLLEXPORT" = Some (Text "__declspec(dllexport)")) /\
     (absent e "_USRDLL" -> lookup e' "DLLEXPORT" = Some (Text "__declspec(dllimport)"))) /\
  (~ (os = 2 /\ comp = 2) -> lookup e' "DLLEXPORT" = Some Empty).
Proof.
  intros e e' os comp P R O C. destruct (process_ok e P) as (e1 & os' & name' & comp' & std & c & o & R1 & F). replace e1 with e' in F by congruence.
  destruct F. rewrite (classified_fun _ _ _ _ _ O f_os), (classified_fun _ _ _ _ _ C f_comp), f_export. split.
  - intros [-> ->]. cbn [Z.eqb Pos.eqb andb]. unfold present, absent, defined. destruct (lookup e "_USRDLL"); split; intro X; congruence || reflexivity.
  - intro X. destruct (os' =? 2) eqn:A, (comp' =? 2) eqn:B; try reflexivity. exfalso. apply X. split; lia.
Qed.
Print Assumptions C105_export.
(** CFG_ENDIANNESS is not always the order of the bytes of integers: it is big on a machine whose bytes are in little endian order but whose floating point
    numbers have their words in big endian order. *)
Theorem C105_byte_order_refuted : exists e e', predefined e /\ process e = Some e' /\
  stands_for e "__BYTE_ORDER__" 1234 /\ stands_for e "__ORDER_LITTLE_ENDIAN__" 1234 /\ stands_for e "__ORDER_BIG_ENDIAN__" 4321 /\ is_number e' "CFG_ENDIANNESS" 2.
Proof.
  exists gcc_mixed. eexists. split; [apply predefinedb_ok; reflexivity|]. split; [vm_compute; reflexivity|].
  split; [eapply sf_name; [reflexivity|]; apply sf_int; reflexivity|]. split; [apply sf_int; reflexivity|]. split; [apply sf_int; reflexivity|].
  eapply num_name; [reflexivity|]. apply num_int. reflexivity.
Qed.
Print Assumptions C105_byte_order_refuted.
Example C105_cases : map (fun e => values e ["CFG_ENDIANNESS"; "DLLEXPORT"]) compilers =
  [Some [Some (Int 1); Some Empty]; Some [Some (Int 1); Some (Text "__declspec(dllexport)")]; Some [Some (Int 1); Some Empty];
   Some [Some (Int 1); Some Empty]; Some [Some (Int 1); Some Empty]; Some [Some (Int 2); Some Empty]].
Proof. vm_compute. reflexivity. Qed.

(** C106. On Windows windows.hpp includes windows.h with both guards of winsock.h defined, whatever was included before, and leaves
    the guards as they were: winsock.h or winsock2.h can be included afterwards. The macros max, min and DELETE are gone. *)
Theorem C106_windows : forall header e, header "config.hpp" = process -> polite header -> predefined e -> classified e os_rows 0 2 ->
  (forall g, In g guards -> plain e g) ->
  exists e', run header windows_hpp e = Some e' /\
    (forall g, In g guards -> lookup e g <> Some (Int 1234567890) -> lookup e' g = lookup e g) /\
    forall n, In n ["max"; "min"; "DELETE"] -> absent e' n.
Proof.
  intros header e H PO P O PL. destruct (windows_hpp_ok header e H P) as (e1 & os & R & O' & W).
  rewrite (classified_fun _ _ _ _ _ O' O) in W. cbn [Z.eqb Pos.eqb] in W. rewrite W. destruct (C102_accepted e P) as (e2 & R2 & S & _).
  assert (e2 = e1) by congruence. subst e2. assert (SG : forall g, In g guards -> lookup e1 g = lookup e g).
  { intros g I. apply S. intro X. apply ownb_iff in X. destruct I as [<-|[<-|[]]]; discriminate. }
  destruct (windows_ok header e1 PO) as (e' & A & B & C).
  { intros g I. unfold plain. rewrite (SG g I). exact (PL g I). }
  exists e'. split; [exact A|]. split; [|exact C]. intros g I NE. rewrite (B g I), (SG g I). unfold restored.
  destruct (lookup e g) as [[|v|m|t]|]; try reflexivity. destruct (v =? 1234567890) eqn:E; [|reflexivity]. apply Z.eqb_eq in E. subst v. congruence.
Qed.
Print Assumptions C106_windows.
(** Elsewhere it does no more than config.hpp. *)
Theorem C106_elsewhere : forall header e os, header "config.hpp" = process -> predefined e -> classified e os_rows 0 os -> os <> 2 ->
  run header windows_hpp e = process e.
Proof.
  intros header e os H P O NE. destruct (windows_hpp_ok header e H P) as (e1 & os' & R & O' & W).
  rewrite (classified_fun _ _ _ _ _ O' O) in W. apply Z.eqb_neq in NE. rewrite NE in W. congruence.
Qed.
Print Assumptions C106_elsewhere.
(** A windows.h that includes winsock.h unless told not to, and defines min and max. *)
Definition a_windows_h (f : string) (e : env) : option env :=
  if String.eqb f "config.hpp" then process e
  else run sdk_header (If (Not (Defined "_WINSOCKAPI_")) (Define "_WINSOCKAPI_" Empty (Define "SOCKET" Empty Done)) Done
    (Undef "max" (Undef "min" (Define "max" Empty (Define "min" Empty Done))))) e.
Example C106_case : polite a_windows_h /\ classified msvc_windows os_rows 0 2 /\
  option_map (fun e => map (lookup e) ["_WINSOCKAPI_"; "SOCKET"; "max"; "CFG_OS"]) (run a_windows_h windows_hpp msvc_windows) = Some [None; None; None; Some (Name "CFG_OS_WINDOWS")] /\
  option_map (fun e => map (lookup e) ["_WINSOCKAPI_"; "_WINSOCK_H"]) (run a_windows_h windows_hpp (("_WINSOCKAPI_", Empty) :: msvc_windows)) = Some [Some Empty; None].
Proof.
  split; [|split; [|vm_compute; split; reflexivity]].
  - intros e G. unfold a_windows_h. cbn [String.eqb Ascii.eqb Bool.eqb]. pose proof (G "_WINSOCKAPI_" (or_introl eq_refl)) as A. unfold present in A.
    cbn [run eval]. unfold defined. destruct (lookup e "_WINSOCKAPI_") as [b|] eqn:L; [|contradiction]. cbn [of_bool Z.eqb run].
    rewrite lookup_undef_ne, lookup_undef_eq by discriminate. cbn [lookup]. rewrite lookup_undef_eq. eexists. split; [reflexivity|].
    intros g [<-|[<-|[]]]; cbn [lookup]; rewrite !lookup_undef_ne by discriminate; reflexivity.
  - apply cl_next; [intros n [<-|[]]; reflexivity|]. apply (cl_here _ _ "_WIN32"); [cbn; auto|discriminate].
Qed.
