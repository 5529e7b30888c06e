(** Tests, not proofs: the models reproduce what the unit tests of the project (tests/unit/src) expect of the code. They
    check the reading of the code, which nothing else ties to the models. The components other than those in ConfText.v and
    ConfTree.v; names are qualified as the models share many. *)
From Coq Require Import String.
From Verif Require Import Base StrLit MathModel FloatFastModel FloatSpec.
From Verif Require UnicodeModel MiscModel EnumModel FlagsModel MetaModel UtilModel SortModel LinqModel RaiiModel DeepModel SpanModel
  SignalModel ExceptModel RefModel.
Local Open Scope string_scope.
Local Open Scope list_scope.

Definition text_lt (a b : string) : bool := match String.compare a b with Lt => true | _ => false end.

(** unicode.cpp:16-72, 202-263 *)
Local Open Scope N_scope.
Example test_utf8_iterator :
  let bytes := [0x61; 0xd0; 0x91; 0xd1; 0x86; 0xef; 0xba; 0xb6; 0xf0; 0xa0; 0x80; 0x8b] in
  UnicodeModel.to_utf32_span bytes = Ok [0x61; 0x411; 0x446; 0xfeb6; 0x2000b] /\
  UnicodeModel.to_utf32_cstr (bytes ++ [0]) = Ok [0x61; 0x411; 0x446; 0xfeb6; 0x2000b].
Proof. vm_compute. auto. Qed.
(** unicode.cpp:74-200: the bytes up to the terminating zero *)
Fixpoint c_string (l : list (option N)) : list N :=
  match l with
  | Some b :: l => if b =? 0 then [] else b :: c_string l
  | _ => []
  end.
Example test_to_utf8 dbg :
  List.map (fun c => r <- UnicodeModel.to_utf8_char dbg c ;; Ok (c_string r))
    [0; 0x73; 0x41a; 0xbf5; 0x26218; 0x3ffffff; 0x7fffffff] =
  List.map Ok [[]; [0x73]; [0xd0; 0x9a]; [0xe0; 0xaf; 0xb5]; [0xf0; 0xa6; 0x88; 0x98]; [0xfb; 0xbf; 0xbf; 0xbf; 0xbf];
    [0xfd; 0xbf; 0xbf; 0xbf; 0xbf; 0xbf]] /\
  UnicodeModel.to_utf8 dbg (str "Hello world!") = Ok (str "Hello world!").
Proof. destruct dbg; vm_compute; auto. Qed.

Local Open Scope Z_scope.
(** version.cpp:9-52 *)
Definition v (a b : Z) : MiscModel.version := MiscModel.Build_version a b.
Example test_version :
  Forall (fun w => MiscModel.to_uint32 (v 10 20) < MiscModel.to_uint32 w) [v 11 20; v 10 21; v 11 21] /\
  MiscModel.print_version (v 10 20) = zstr "10.20" /\
  List.map (fun p => MiscModel.version_ge (fst p) (snd p)) [(v 1 2, v 1 1); (v 1 2, v 1 2); (v 1 2, v 1 3); (v 2 0, v 1 9); (v 2 0, v 0 9)] =
    [true; true; false; true; true] /\
  List.map (fun p => MiscModel.version_lt (fst p) (snd p)) [(v 1 2, v 1 1); (v 1 2, v 1 2); (v 1 2, v 1 3); (v 2 0, v 1 9); (v 2 0, v 0 9)] =
    [false; false; true; false; false].
Proof. split; [repeat constructor|vm_compute; auto]. Qed.

(** enum_iterable.cpp:15-24, enum_array.cpp:9-125 *)
Definition int_t : MiscModel.ity := MiscModel.Build_ity true 32.
Example test_enum dbg :
  EnumModel.enum_iterate 10 int_t 3 = Ok [0; 1; 2] /\
  EnumModel.zip_with_enum 10 int_t 4 (fun _ s => String.append s "!") ["a"; "b"; "c"; "d"] =
    Ok ([("a", 0); ("b", 1); ("c", 2); ("d", 3)], ["a!"; "b!"; "c!"; "d!"]) /\
  List.map (EnumModel.array_get dbg ["a"; "b"; "c"; "d"]) [0; 1; 2; 3] = List.map Ok ["a"; "b"; "c"; "d"] /\
  EnumModel.array_set dbg ["a"; "b"; "c"; "d"] 0 "a!" = Ok ["a!"; "b"; "c"; "d"].
Proof. destruct dbg; vm_compute; auto. Qed.

(** flags.cpp: the enumeration at 5-47, in which there is no eighteenth *)
Definition second := 2. Definition eighth := 8. Definition eleventh := 11. Definition twelveth := 12.
Definition nineteenth := 18. Definition twenty_fifth := 24. Definition twenty_seventh := 26.
Definition flags_run (dbg : bool) (p : list FlagsModel.instr) : outcome (list bool) :=
  r <- FlagsModel.run dbg 39 (fun _ => []) p ;;
  Ok (flat_map (fun o => match o with FlagsModel.o_bool b => [b] | _ => [] end) (snd r)).
Import FlagsModel (i_bool, i_list, i_one, i_or_enums, i_set, i_assign, i_set_all, i_clear, i_or_enum, i_or, i_get, i_index, i_is_clear, i_is_set, i_eq, i_ne).
(** 62-103 *)
Example test_flags_basic dbg :
  flags_run dbg
    [i_bool 0 false; i_set 0 eighth true; i_set 0 second true; i_set 0 eighth false; i_get 0 eighth; i_get 0 second;
     i_bool 1 false; i_is_clear 1; i_is_set 1; i_set 1 eighth true; i_is_clear 1; i_is_set 1;
     i_bool 2 true; i_is_clear 2; i_is_set 2; i_set_all 2 true; i_set 2 eighth false; i_is_clear 2; i_is_set 2] =
  Ok [false; true; true; false; false; false; false; true; false; false].
Proof. destruct dbg; vm_compute; reflexivity. Qed.
(** 113-177 *)
Example test_flags_list dbg :
  flags_run dbg
    [i_list 0 []; i_is_clear 0;
     i_list 0 [twenty_seventh; nineteenth];
     i_is_clear 0; i_get 0 twenty_seventh; i_index 0 twenty_seventh; i_get 0 nineteenth; i_index 0 nineteenth;
     i_clear 0 twenty_seventh;
     i_is_clear 0; i_get 0 twenty_seventh; i_index 0 twenty_seventh; i_get 0 nineteenth; i_index 0 nineteenth;
     i_clear 0 nineteenth;
     i_is_clear 0; i_get 0 twenty_seventh; i_index 0 twenty_seventh; i_get 0 nineteenth; i_index 0 nineteenth;
     i_list 0 [nineteenth; twenty_seventh; nineteenth]; i_clear 0 twenty_seventh; i_is_clear 0; i_get 0 nineteenth;
     i_assign 0 nineteenth false; i_is_clear 0] =
  Ok [true; false; true; true; true; true; false; false; false; true; true; true; false; false; false; false; false; true; true].
Proof. destruct dbg; vm_compute; reflexivity. Qed.
(** 179-209 *)
Example test_flags_or dbg :
  flags_run dbg
    [i_list 0 [nineteenth; twenty_seventh; nineteenth]; i_get 0 eighth; i_or_enum 0 0 eighth; i_get 0 eighth;
     i_one 1 eleventh; i_get 1 eleventh; i_clear 1 eleventh; i_is_clear 1;
     i_or_enums 2 eighth eleventh; i_get 2 eighth; i_get 2 eleventh; i_clear 2 eighth; i_clear 2 eleventh; i_is_clear 2] =
  Ok [false; true; true; true; true; true; true].
Proof. destruct dbg; vm_compute; reflexivity. Qed.
(** 217-253 *)
Example test_flags_compare dbg :
  flags_run dbg
    [i_list 0 [eighth; eleventh]; i_bool 1 false; i_ne 0 1;
     i_list 2 [eighth]; i_ne 0 2; i_list 2 [eighth; twelveth]; i_ne 0 2; i_list 2 [eighth; twelveth; twenty_fifth]; i_ne 0 2;
     i_or_enums 2 eighth twelveth; i_ne 0 2; i_or_enum 2 2 twenty_fifth; i_ne 0 2;
     i_set 1 eighth true; i_set 1 eleventh true; i_eq 0 1; i_or_enums 2 eighth eleventh; i_eq 0 2] =
  Ok [true; true; true; true; true; true; true; true].
Proof. destruct dbg; vm_compute; reflexivity. Qed.

(** variant.cpp:10-51; types by name *)
Example test_index_of :
  List.map (fun t => MetaModel.index_of String.eqb t ["int"; "const char*"; "std::string"; "std::pair<bool, int>"])
    ["int"; "std::pair<bool, int>"; "std::string"; "const char*"] = [Some 0%nat; Some 3%nat; Some 2%nat; Some 1%nat].
Proof. vm_compute. reflexivity. Qed.
(** type_traits.cpp:7-28 *)
Example test_is_scoped_enum :
  let obj t := MetaModel.Obj (MetaModel.Q false false t) in
  List.map (fun t => MetaModel.is_scoped_enum (obj t)) [MetaModel.Fundamental 0; MetaModel.Enum 0 false; MetaModel.Enum 0 true] = [false; false; true].
Proof. vm_compute. reflexivity. Qed.

(** views.cpp:10-103 *)
Example test_views :
  UtilModel.reverse_iterate 20 [0; 1; 2; 3; 4; 5; 6; 7; 8; 9] = Ok [9; 8; 7; 6; 5; 4; 3; 2; 1; 0] /\
  (let cs := [["0"; "1"; "2"; "3"; "4"; "5"; "6"]; ["3"; "4"; "5"]; ["1"; "2"; "3"; "4"]] in
   UtilModel.zip_iterate 20 (UtilModel.zip_min_size cs) cs = Ok [["0"; "3"; "1"]; ["1"; "4"; "2"]; ["2"; "5"; "3"]]) /\
  (let cs := [["a"; "b"; "c"; "d"]; ["1"; "2"; "3"; "4"]] in
   UtilModel.zip_iterate 20 (UtilModel.zip_min_size cs) cs = Ok [["a"; "1"]; ["b"; "2"]; ["c"; "3"]; ["d"; "4"]]).
Proof. vm_compute. auto. Qed.

(** sort.cpp:23-57, 64-134 *)
Example test_sort :
  let arr := [("hello", 13); ("bye", 15); ("how", 33); ("are", 4); ("you", 9)] in
  SortModel.quick_sort 20 (fun a b => text_lt (fst a) (fst b)) arr 0 5 = Ok [("are", 4); ("bye", 15); ("hello", 13); ("how", 33); ("you", 9)] /\
  SortModel.quick_sort 20 (fun a b => snd a <? snd b) arr 0 5 = Ok [("are", 4); ("you", 9); ("hello", 13); ("bye", 15); ("how", 33)] /\
  SortModel.quick_sort 20 text_lt (List.map fst arr) 0 5 = Ok ["are"; "bye"; "hello"; "how"; "you"].
Proof. vm_compute. auto. Qed.

(** linq.cpp. A moved-from string is empty, as the tests check. std::sort is insertion sort here: the elements with
    the key 14 are expected in the order they had, which std::sort does not promise. *)
Definition moved_pair (p : Z * string) : Z * string := (fst p, "").
Fixpoint insert_sorted {A} (lt : A -> A -> bool) (x : A) (l : list A) : list A :=
  match l with [] => [x] | y :: l => if lt y x then y :: insert_sorted lt x l else x :: y :: l end.
Definition insertion_sort {A} (lt : A -> A -> bool) (l : list A) : list A := fold_right (insert_sorted lt) [] l.
(** 13-103 *)
Example test_linq_select :
  let in_ := [(13, "13"); (14, "14"); (1, "1")] in
  let sorted := [(1, "1"); (13, "13"); (14, "14")] in
  LinqModel.get (fst (LinqModel.select moved_pair LinqModel.ByValue (fun e => snd e) (LinqModel.linq_rvalue in_))) = ["13"; "14"; "1"] /\
  LinqModel.select_index moved_pair LinqModel.ByValue (fun e i => (snd e, i)) (LinqModel.linq_lvalue sorted) =
    (LinqModel.linq_rvalue [("1", 0%N); ("13", 1%N); ("14", 2%N)], sorted) /\
  LinqModel.select moved_pair LinqModel.ByValue (fun e => snd e) (LinqModel.linq_lvalue in_) = (LinqModel.linq_rvalue ["13"; "14"; "1"], in_).
Proof. vm_compute. auto. Qed.
(** 105-165 *)
Example test_linq_group_by :
  let in_ := [(13, "13"); (14, "14"); (1, "1"); (132, "13"); (15, "15"); (133, "13"); (11, "1")] in
  let selected := fst (LinqModel.select_index moved_pair LinqModel.ByValue (fun e i => (snd e, fst e, i)) (LinqModel.linq_rvalue in_)) in
  LinqModel.get (fst (LinqModel.group_by (fun x => x) text_lt (fun x => fst (fst x)) selected)) =
    [("1", [("1", 1, 2%N); ("1", 11, 6%N)]); ("13", [("13", 13, 0%N); ("13", 132, 3%N); ("13", 133, 5%N)]); ("14", [("14", 14, 1%N)]);
     ("15", [("15", 15, 4%N)])].
Proof. vm_compute. reflexivity. Qed.
(** 167-244 *)
Example test_linq_where :
  let in_ := [(13, "13"); (14, "14"); (1, "1"); (13, "13_2"); (3, "3"); (13, "13_3")] in
  let in2 := [(13, "13"); (14, "14"); (1, "1"); (13, "13_2"); (3, "3"); (3, "3_2")] in
  LinqModel.where_ moved_pair LinqModel.push_end LinqModel.ByConstRef (fun e => fst e =? 13) (LinqModel.linq_lvalue in_) =
    (LinqModel.linq_rvalue [(13, "13"); (13, "13_2"); (13, "13_3")], in_) /\
  (let (groups, after) := LinqModel.group_by moved_pair Z.ltb fst (LinqModel.linq_lvalue in2) in
   after = in2 /\
   LinqModel.get (fst (LinqModel.where_ (fun g => g) (LinqModel.map_insert_pair Z.ltb) LinqModel.ByConstRef
                         (fun g => Nat.eqb (List.length (snd g)) 2) groups)) =
     [(3, [(3, "3"); (3, "3_2")]); (13, [(13, "13"); (13, "13_2")])]).
Proof. vm_compute. auto. Qed.
(** 246-363 *)
Example test_linq_order_by :
  let in_ := [(13, "13"); (14, "hgb"); (14, "asdh"); (5, "asd"); (1, "1")] in
  let out := [(1, "1"); (5, "asd"); (13, "13"); (14, "hgb"); (14, "asdh")] in
  LinqModel.get (fst (LinqModel.order_by (@insertion_sort _) Z.ltb fst (LinqModel.linq_rvalue in_))) = out /\
  LinqModel.order_by (@insertion_sort _) Z.ltb fst (LinqModel.linq_lvalue in_) = (LinqModel.linq_rvalue out, in_).
Proof. vm_compute. auto. Qed.

(** math.cpp:37-38 *)
Example test_math :
  let float_pi := fp_convert binary64 binary32 ToNearest pi in
  let float_180 := fp_of_int binary32 ToNearest 180 in
  rad_to_deg binary32 ToNearest float_pi = float_180 /\ deg_to_rad binary32 ToNearest float_180 = float_pi.
Proof. vm_compute. auto. Qed.

(** utility.cpp:187-207; the function sets the flag *)
Example test_scope_exit :
  let run l := r <- RaiiModel.se_run (fun (_ : unit) (_ : bool) => (true, None)) (fun f => f) l (RaiiModel.se_init false) ;;
               Ok (RaiiModel.se_world (fst r)) in
  run [RaiiModel.se_construct (Some tt); RaiiModel.se_destroy 0] = Ok true /\
  run [RaiiModel.se_construct (Some tt); RaiiModel.se_release 0; RaiiModel.se_destroy 0] = Ok false.
Proof. vm_compute. auto. Qed.
(** singleton.cpp:18-33 *)
Example test_singleton dbg :
  (r <- RaiiModel.sg_run dbg [RaiiModel.sg_construct None; RaiiModel.sg_construct None; RaiiModel.sg_destroy 0] RaiiModel.sg_init ;;
   Ok (List.map snd (snd r))) = Ok [RaiiModel.sg_made 0; RaiiModel.sg_threw LogicError; RaiiModel.sg_nothing].
Proof. destruct dbg; vm_compute; reflexivity. Qed.

(** span.cpp:252-294 *)
Local Open Scope N_scope.
Example test_subspan dbg :
  let arr := str "Hello world!" in
  let s := SpanModel.Span 0 12 in
  SpanModel.subspan dbg arr s 3 SpanModel.size_max = Ok (SpanModel.Span 3 9) /\
  SpanModel.subspan dbg arr s 12 SpanModel.size_max = Ok (SpanModel.Span 12 0) /\
  SpanModel.subspan dbg arr s 3 4 = Ok (SpanModel.Span 3 4).
Proof. destruct dbg; vm_compute; auto. Qed.
(** span.cpp:318-406 *)
Example test_deep :
  let v1 := [10; 20; 13; 65] in
  let v2 := [3; 10; 20; 13; 65; 73] in
  let sub o c := match SpanModel.subspan true v2 (SpanModel.Span 0 6) o c with Ok s => SpanModel.contents v2 s | _ => [] end in
  let sub1 := [20; 13; 65] in
  DeepModel.deep_not_equals N.eqb v1 v2 = Ok true /\ DeepModel.deep_equals N.eqb v1 (sub 1 4) = Ok true /\
  [DeepModel.deep_less_than N.ltb N.ltb v2 v1; negb (DeepModel.deep_less_than N.ltb N.ltb v1 (sub 1 4)); DeepModel.deep_less_than N.ltb N.ltb v1 (sub 1 5);
   DeepModel.deep_greater_or_equals N.ltb N.ltb v1 v2; negb (DeepModel.deep_greater_or_equals N.ltb N.ltb v2 sub1);
   DeepModel.deep_greater_or_equals N.ltb N.ltb v1 (sub 1 4); DeepModel.deep_greater_or_equals N.ltb N.ltb (sub 1 5) v1;
   DeepModel.deep_greater_than N.ltb N.ltb v1 v2; negb (DeepModel.deep_greater_than N.ltb N.ltb v1 (sub 1 4));
   DeepModel.deep_greater_than N.ltb N.ltb (sub 1 5) v1;
   DeepModel.deep_less_or_equals N.ltb N.ltb v2 v1; DeepModel.deep_less_or_equals N.ltb N.ltb v1 (sub 1 4);
   DeepModel.deep_less_or_equals N.ltb N.ltb (sub 1 4) v1; DeepModel.deep_less_or_equals N.ltb N.ltb v1 (sub 1 5)] = repeat true 14.
Proof. vm_compute. auto. Qed.
(** span.cpp:408-413, 463-524; in the second the array begins before the span and ends behind it *)
Example test_span_at :
  let arr := str "hello wolrd!" in
  let s := SpanModel.Span 0 12 in
  SpanModel.span_empty (SpanModel.Span 0 0) = true /\
  List.map (fun p => SpanModel.overlaps (SpanModel.Span 5 12) (5 + p - 1)) [0; 1; 2; 3; 12; 13; 14] =
    List.map Ok [false; true; true; true; true; false; false] /\
  List.map (SpanModel.span_at arr s) [0; 1; 2; 3; 4; 5; 6; 7; 8; 9; 10; 11] = List.map Ok arr /\
  SpanModel.span_at arr s 12 = Throw OutOfRange.
Proof. vm_compute. auto. Qed.

(** signal.cpp:7-59: the callbacks add a number *)
Local Open Scope nat_scope.
Example test_signal dbg :
  let prog (f : nat) (_ : unit) (w : nat) := SignalModel.s_done (w + f) in
  let emit := SignalModel.emit prog SignalModel.by_reference 10 tt in
  let s0 := SignalModel.new_signal (F := nat) (A := unit) 0 in
  let (s1, r1) := emit s0 in
  let (s2, id1) := SignalModel.connect 1 s1 in
  let (s3, r3) := emit s2 in
  let (s4, id2) := SignalModel.connect 3 s3 in
  let (s5, r5) := emit s4 in
  let (s6, r6) := SignalModel.disconnect id1 s5 in
  let (s7, r7) := SignalModel.disconnect id2 s6 in
  List.map SignalModel.size [s0; s1; s2; s3; s4; s5; s6; s7] = [0; 0; 1; 1; 2; 2; 1; 0] /\
  List.map SignalModel.empty [s0; s1; s2; s3; s4; s5; s6; s7] = [true; true; false; false; false; false; false; true] /\
  List.map SignalModel.world [s0; s1; s2; s3; s4; s5; s6; s7] = [0; 0; 0; 1; 1; 5; 5; 5] /\
  [r1; r3; r5; r6; r7; SignalModel.destroy dbg s7] = repeat (Ok tt) 6 /\ Nat.eqb id1 id2 = false.
Proof. destruct dbg; vm_compute; repeat split. Qed.

(** exception.cpp:16-193 *)
Definition std_exn (name what : string) : ExceptModel.exn := ExceptModel.Obj ExceptModel.Std (zstr name) (zstr what) ExceptModel.NoNested.
Definition unknown : ExceptModel.exn := ExceptModel.Obj ExceptModel.Foreign (zstr "(anonymous namespace)::some_unknown_error") [] ExceptModel.NoNested.
Fixpoint lines (l : list string) : list Z :=
  match l with [] => [] | [s] => zstr s | s :: l => zstr s ++ [10%Z] ++ lines l end.
Example test_exception (gnu : bool) :
  let logic := std_exn "std::logic_error" "some logic error" in
  let to_string := fun e => ExceptModel.to_string_of (ExceptModel.printers_of gnu e) in
  (* the names of the types made by std::throw_with_nested are those of libstdc++ *)
  let nest (c : ExceptModel.class) (name : string) (what : string) e :=
    ExceptModel.Obj c (zstr ("std::_Nested_exception<" ++ name ++ ">")%string) (zstr what) (ExceptModel.Nested e) in
  to_string logic [] = Ok (zstr "std::logic_error: some logic error") /\
  to_string (nest ExceptModel.Std "std::invalid_argument" "some argument is invalid"
              (nest ExceptModel.Foreign "(anonymous namespace)::some_unknown_error" ""
                (nest ExceptModel.Std "std::runtime_error" "some_runtime_error" logic))) (zstr "  ") =
    Ok (lines ["  std::_Nested_exception<std::invalid_argument>: some argument is invalid";
               if gnu then "  std::_Nested_exception<(anonymous namespace)::some_unknown_error>" else "  unknown exception";
               "  std::_Nested_exception<std::runtime_error>: some_runtime_error"; "  std::logic_error: some logic error"]) /\
  ExceptModel.current_exception_to_string gnu (Some unknown) (zstr "  ") =
    Ok (zstr (if gnu then "  (anonymous namespace)::some_unknown_error" else "  unknown exception")).
Proof. destruct gnu; vm_compute; auto. Qed.
Example test_stacked_exception (gnu dbg : bool) :
  let chain := ExceptModel.rethrow (fun n => zstr "utki::stacked_exception<" ++ n ++ zstr ">") dbg unknown
    [std_exn "std::logic_error" "some logic error"; std_exn "std::runtime_error" "some_runtime_error";
     std_exn "std::invalid_argument" "some argument is invalid"] in
  let last := if gnu then "(anonymous namespace)::some_unknown_error"%string else "unknown exception" in
  (e <- chain ;; ExceptModel.method_of (ExceptModel.printers_of gnu e) (zstr "  ")) =
    Ok (lines ["  std::invalid_argument: some argument is invalid"; "  std::runtime_error: some_runtime_error";
               "  std::logic_error: some logic error"; ("  " ++ last)%string]) /\
  (e <- chain ;; ExceptModel.what_of (ExceptModel.printers_of gnu e)) =
    Ok (lines ["exception stack:"; "- std::invalid_argument: some argument is invalid"; "- std::runtime_error: some_runtime_error";
               "- std::logic_error: some logic error"; ("- " ++ last)%string]).
Proof. destruct gnu, dbg; vm_compute; auto. Qed.

(** shared_ref.cpp, shared.cpp, unique_ref.cpp. The classes: 0 is a0, 1 is a1 derived from it, 2 is std::string. Objects are
    numbered in the order they are made; what a pointer holds: *)
Definition derives (d t : nat) : bool := Nat.eqb d t || (Nat.eqb d 1 && Nat.eqb t 0).
Definition holds (dbg : bool) (h : list RefModel.op) (vs : list nat) : outcome (list (option (option nat)) * list RefModel.out) :=
  r <- RefModel.run derives dbg h RefModel.init ;;
  Ok (List.map (fun x => option_map (fun b : RefModel.kind * RefModel.ptr => snd b) (RefModel.lookup (RefModel.vars (fst r)) x)) vs, snd r).
Import RefModel (make, copy, move, copy_assign, move_assign, convert, to_ptr, from_ptr, destroy, get, cast, make_weak, lock, from_this,
  o_none, o_obj, o_threw).
(** shared_ref.cpp:64-78: 0 is sp, moving it into a reference leaves it null. The constructor takes its parameter by value:
    this is the move of a std::shared_ptr followed by the construction from it. *)
Example test_ref_construct dbg :
  holds dbg [make 9 1 None; to_ptr 0 9; destroy 9; from_ptr 1 0; move 8 0; from_ptr 2 8; destroy 8; get 1; get 2] [0; 1; 2] =
    Ok ([Some None; Some (Some 0); Some (Some 0)], [o_none; o_none; o_none; o_none; o_none; o_none; o_none; o_obj 0; o_obj 0]).
Proof. destruct dbg; vm_compute; reflexivity. Qed.
(** 80-101 *)
Example test_ref_copy dbg :
  holds dbg [make 0 1 None; copy 1 0] [0; 1] = Ok ([Some (Some 0); Some (Some 0)], [o_none; o_none]) /\
  holds dbg [make 0 1 None; make 1 1 None; copy_assign 1 0; get 0; get 1] [0; 1] =
    Ok ([Some (Some 0); Some (Some 0)], [o_none; o_none; o_none; o_obj 0; o_obj 0]).
Proof. destruct dbg; vm_compute; auto. Qed.
(** 145-176 *)
Example test_ref_cast dbg :
  holds dbg [make 9 1 None; convert 0 9; cast 1 0 1; get 1; cast 2 0 2] [1; 2] =
    Ok ([Some (Some 0); None], [o_none; o_none; o_none; o_obj 0; o_threw BadCast]).
Proof. destruct dbg; vm_compute; reflexivity. Qed.
(** 178-208 *)
Example test_ref_move dbg :
  holds dbg [make 0 1 None; move 1 0; get 1] [0; 1] = Ok ([Some None; Some (Some 0)], [o_none; o_none; o_obj 0]) /\
  holds dbg [make 0 1 None; make 1 1 None; move_assign 1 0; get 1] [0; 1] = Ok ([Some None; Some (Some 0)], [o_none; o_none; o_none; o_obj 0]).
Proof. destruct dbg; vm_compute; auto. Qed.
(** 210-229: std::rotate by one, by moves *)
Example test_ref_rotate dbg :
  holds dbg [make 0 1 None; make 1 1 None; make 2 1 None; move 9 0; move_assign 0 1; move_assign 1 2; move_assign 2 9; destroy 9] [0; 1; 2] =
    Ok ([Some (Some 1); Some (Some 2); Some (Some 0)], repeat o_none 8).
Proof. destruct dbg; vm_compute; reflexivity. Qed.
(** 231-288, shared.cpp:38-93 *)
Example test_ref_weak dbg :
  holds dbg [make 0 1 None; convert 1 0; to_ptr 2 0; make_weak 0 0; make_weak 1 1; lock 3 0; lock 4 1; from_this 5 0 1; get 5] [2; 3; 4; 5] =
    Ok ([Some (Some 0); Some (Some 0); Some (Some 0); Some (Some 0)],
        [o_none; o_none; o_none; o_none; o_none; o_none; o_none; o_none; o_obj 0]).
Proof. destruct dbg; vm_compute; reflexivity. Qed.
(** unique_ref.cpp:69-78, 122-156, 204-214 *)
Definition uholds (dbg : bool) (h : list RefModel.uop) (vs : list nat) : outcome (list (option (option nat)) * list RefModel.out) :=
  r <- RefModel.urun dbg h RefModel.uinit ;;
  Ok (List.map (fun x => option_map (fun b : RefModel.kind * RefModel.ptr => snd b) (RefModel.lookup (RefModel.uvars (fst r)) x)) vs, snd r).
Import RefModel (umake, umove, uassign, uconvert, uto_ptr, ufrom_ptr, uget).
Example test_unique dbg :
  uholds dbg [umake 9 None; uto_ptr 0 9; ufrom_ptr 1 0; uget 1] [0; 1] = Ok ([Some None; Some (Some 0)], [o_none; o_none; o_none; o_obj 0]) /\
  uholds dbg [umake 9 None; uconvert 0 9; uget 0] [0] = Ok ([Some (Some 0)], [o_none; o_none; o_obj 0]) /\
  uholds dbg [umake 0 None; umove 1 0; uget 1] [1] = Ok ([Some (Some 0)], [o_none; o_none; o_obj 0]) /\
  uholds dbg [umake 0 None; umake 1 None; uassign 1 0; uget 1] [1] = Ok ([Some (Some 0)], [o_none; o_none; o_none; o_obj 0]) /\
  uholds dbg [umake 0 None; uto_ptr 1 0] [1] = Ok ([Some (Some 0)], [o_none; o_none]).
Proof. destruct dbg; vm_compute; repeat split. Qed.
