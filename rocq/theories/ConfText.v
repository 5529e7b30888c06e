(** Tests, not proofs: the models reproduce what the unit tests of the project (tests/unit/src) expect of the code. They
    check the reading of the code, which nothing else ties to the models. Bytes, texts, numbers and utilities. *)
From Coq Require Import String Ascii.
From Verif Require Import FloatPlatform Base StrLit Base64Model SerialModel SpanModel DeserModel StringModel FormatModel WrapModel ParserModel
  TextModel UtilModel FloatParseModel FloatFastModel FloatFromModel FloatCharsModel.
Local Open Scope string_scope.
Local Open Scope list_scope.
Infix "^+" := String.append (at level 60, right associativity).
Local Open Scope N_scope.

Definition nl : string := String (ascii_of_nat 10) "".
Definition tab : string := String (ascii_of_nat 9) "".

(** base64.cpp:9-34 *)
Example test_base64 :
  let samples := [("", ""); ("SA==", "H"); ("SA", "H"); ("SGU=", "He"); ("SGU", "He"); ("SGVs", "Hel"); ("SGVsbA==", "Hell");
    ("SGVsbA", "Hell"); ("SGVsbG8=", "Hello"); ("SGVsbG8", "Hello"); ("SGVsbG8g", "Hello "); ("SGVsbG8gdw==", "Hello w");
    ("SGVsbG8gdw", "Hello w"); ("SGVsbG8gd28=", "Hello wo"); ("SGVsbG8gd28", "Hello wo"); ("SGVsbG8gd29y", "Hello wor");
    ("SGVsbG8gd29ybGQh", "Hello world!")] in
  List.map (fun p => base64_decode true true (str (fst p))) samples = List.map (fun p => Ok (str (snd p))) samples.
Proof. vm_compute. reflexivity. Qed.

(** utility.cpp:92-152: the loops over values, for some of them *)
Example test_serialization :
  Forall (fun i => SerialModel.serialize_le 2 i 0 [0; 0] = Ok ([i mod 256; i / 256], 2%nat) /\
                   SerialModel.deserialize_le 2 0 [i mod 256; i / 256] = Ok i /\
                   SerialModel.serialize_be true 2 i 0 [0; 0] = Ok ([i / 256; i mod 256], 2%nat) /\
                   SerialModel.deserialize_be true 2 0 [i / 256; i mod 256] = Ok i) [0; 1; 255; 256; 4660; 65535] /\
  SerialModel.serialize_le 4 (513177 * 8000) 0 [0; 0; 0; 0] = Ok ([0x40; 0xad; 0xb3; 0xf4], 4%nat) /\
  SerialModel.serialize_le 8 0xabcdef87bcde67af 0 (repeat 0 8) = Ok ([0xaf; 0x67; 0xde; 0xbc; 0x87; 0xef; 0xcd; 0xab], 8%nat) /\
  SerialModel.deserialize_le 8 0 [0xaf; 0x67; 0xde; 0xbc; 0x87; 0xef; 0xcd; 0xab] = Ok 0xabcdef87bcde67af.
Proof. split; [|vm_compute; repeat split]. repeat (constructor; [vm_compute; repeat split|]). constructor. Qed.

(** utility.cpp:154-185 and deserializer.cpp:101-129, 176-204. The compiler's conversion of the literals is that of the
    model of fast_float. *)
Definition float_literal (s : string) : float32 :=
  match from_chars_float (lw := x86_64) ToNearest general (zstr s) with
  | Ok r => match res_value r with Some v => float_of_bits (Z.to_N v) | None => float_of_bits 0 end
  | _ => float_of_bits 0
  end.
Example test_float :
  let samples := [("13", [0x00; 0x00; 0x50; 0x41]); ("13666", [0x00; 0x88; 0x55; 0x46]); ("13666e10", [0x46; 0x95; 0xf8; 0x56]);
    ("13.666", [0xf0; 0xa7; 0x5a; 0x41]); ("-13", [0x00; 0x00; 0x50; 0xc1]); ("-13666", [0x00; 0x88; 0x55; 0xc6]);
    ("-13666e10", [0x46; 0x95; 0xf8; 0xd6]); ("-13.666", [0xf0; 0xa7; 0x5a; 0xc1])] in
  List.map (fun p => serialize_float_le (float_literal (fst p)) 0 [0; 0; 0; 0]) samples = List.map (fun p => Ok (snd p, 4%nat)) samples /\
  List.map (fun p => deserialize_float_le 0 (snd p)) samples = List.map (fun p => Ok (float_literal (fst p))) samples /\
  List.map (fun p => serialize_float_be true (float_literal (fst p)) 0 [0; 0; 0; 0]) samples = List.map (fun p => Ok (rev (snd p), 4%nat)) samples /\
  List.map (fun p => DeserModel.run true (snd p) (make (snd p)) [ReadFloatle; Empty; Size]) samples =
    List.map (fun p => ([Ok (RFloat (float_literal (fst p))); Ok (RBool true); Ok (RSize 0)], Span 4 0)) samples /\
  List.map (fun p => DeserModel.run true (rev (snd p)) (make (snd p)) [ReadFloatbe; Empty; Size]) samples =
    List.map (fun p => ([Ok (RFloat (float_literal (fst p))); Ok (RBool true); Ok (RSize 0)], Span 4 0)) samples.
Proof. vm_compute. repeat split. Qed.

(** deserializer.cpp:11-99, 131-174, 206-217 *)
Definition views (buf : list N) (r : list (outcome res) * span) : list (option (list N)) :=
  List.map (fun x => match x with Ok (RView s) => Some (contents buf s) | _ => None end) (fst r).
Definition deser (buf : list N) (ops : list DeserModel.op) := fst (DeserModel.run true buf (make buf) ops).
Example test_deserializer :
  let buf := str "bbbHello world!ccc" in
  views buf (DeserModel.run true buf (make buf) [ReadString 3; ReadString 12; ReadString 3]) = [Some (str "bbb"); Some (str "Hello world!"); Some (str "ccc")] /\
  views buf (DeserModel.run true buf (make buf) [ReadSpan 3; ReadSpan 12; ReadSpan 3]) = [Some (str "bbb"); Some (str "Hello world!"); Some (str "ccc")] /\
  views buf (DeserModel.run true buf (make buf) [Skip 3; ReadSpan 12; Skip 3]) = [None; Some (str "Hello world!"); None] /\
  deser [0xa1; 0xb2] [Empty; Size; ReadU8; ReadU8; Empty; Size] =
    [Ok (RBool false); Ok (RSize 2); Ok (RInt 0xa1); Ok (RInt 0xb2); Ok (RBool true); Ok (RSize 0)] /\
  deser [0xa1; 0xb2] [Empty; Size; ReadU16le; Empty; Size] = [Ok (RBool false); Ok (RSize 2); Ok (RInt 0xb2a1); Ok (RBool true); Ok (RSize 0)] /\
  deser [0xa1; 0xb2; 0xc3; 0xd4] [Size; ReadU32le; Empty] = [Ok (RSize 4); Ok (RInt 0xd4c3b2a1); Ok (RBool true)] /\
  deser [0xa1; 0xb2; 0xc3; 0xd4; 0xe5; 0xf6; 0x17; 0x28] [Size; ReadU64le; Empty] = [Ok (RSize 8); Ok (RInt 0x2817f6e5d4c3b2a1); Ok (RBool true)] /\
  deser [0xb2; 0xa1] [Empty; Size; ReadU16be; Empty; Size] = [Ok (RBool false); Ok (RSize 2); Ok (RInt 0xb2a1); Ok (RBool true); Ok (RSize 0)] /\
  deser [0xd4; 0xc3; 0xb2; 0xa1] [Size; ReadU32be; Empty] = [Ok (RSize 4); Ok (RInt 0xd4c3b2a1); Ok (RBool true)] /\
  deser [0x28; 0x17; 0xf6; 0xe5; 0xd4; 0xc3; 0xb2; 0xa1] [Size; ReadU64be; Empty] = [Ok (RSize 8); Ok (RInt 0x2817f6e5d4c3b2a1); Ok (RBool true)].
Proof. vm_compute. repeat split. Qed.

(** utility.cpp:21-90, 209-312 *)
Definition text_ltb : list N -> list N -> bool := fix f (a b : list N) : bool :=
  match a, b with
  | [], [] => false
  | [], _ => true
  | _, [] => false
  | x :: a, y :: b => if x <? y then true else if y <? x then false else f a b
  end.
Definition text_eqb : list N -> list N -> bool := fix f (a b : list N) : bool :=
  match a, b with
  | [], [] => true
  | x :: a, y :: b => (x =? y) && f a b
  | _, _ => false
  end.
Example test_utility :
  end_pointer (repeat 0 13) = Ok 13%Z /\ end_pointer (str "Hello world") = Ok 11%Z /\
  flip_map text_ltb [(10, str "10"); (13, str "13"); (42, str "42")] = [(str "10", 10); (str "13", 13); (str "42", 42)] /\
  flip_map N.ltb [(str "10", 10); (str "13", 13); (str "42", 42)] = [(10, str "10"); (13, str "13"); (42, str "42")] /\
  skip_front_iterate 20 true 3 [0; 1; 2; 3; 4; 5; 6; 7; 8; 9] = Ok [3; 4; 5; 6; 7; 8; 9] /\
  List.map (fun s => UtilModel.contains text_eqb [str "aaa"; str "bbb"; str "ccc"] (str s)) ["aaa"; "bbb"; "ccc"; ""; "a"; "b"; "c"] =
    [true; true; true; false; false; false; false] /\
  List.map (fun s => contains_map text_ltb [(str "aaa", 1); (str "bbb", 2); (str "ccc", 3)] (str s)) ["aaa"; "bbb"; "ccc"; ""; "a"; "b"; "c"] =
    [true; true; true; false; false; false; false].
Proof. vm_compute. repeat split. Qed.

(** string.cpp:15-218: vsnprintf is an oracle *)
Example test_make_string :
  let long := List.concat (repeat (str "1234567890abcdef") 64) ++ str "Hello 13 world!" in
  make_string (fun _ => Some (str " ")) 2 true (repeat 7 1024) = Ok (Returned (str " "), VaEnded) /\
  make_string (fun _ => Some (str "Hello 13 world!")) 2 true (repeat 7 1024) = Ok (Returned (str "Hello 13 world!"), VaEnded) /\
  List.length long = (1024 + 15)%nat /\
  make_string (fun _ => Some long) 2 true (repeat 7 1024) = Ok (Returned long, VaEnded).
Proof. vm_compute. repeat split. Qed.

(** string.cpp:220-413 *)
Example test_split_join :
  StringModel.split N.eqb 99 (str "qwe/rtyu/io/p//[]") 47 = Ok (List.map str ["qwe"; "rtyu"; "io"; "p"; ""; "[]"]) /\
  StringModel.split N.eqb 99 (str "qwe/rtyu/io/p//[]/") 47 = Ok (List.map str ["qwe"; "rtyu"; "io"; "p"; ""; "[]"; ""]) /\
  StringModel.split N.eqb 99 (str "") 47 = Ok [[]] /\
  split_words classic_isspace (zstr (" hello world    bla" ^+ tab ^+ "blah" ^+ nl ^+ "!")) = Ok (List.map zstr ["hello"; "world"; "bla"; "blah"; "!"]) /\
  StringModel.join 99 true (List.map str ["hello"; "world"; "!"]) 35 = Ok (str "hello#world#!").
Proof. vm_compute. repeat split. Qed.

(** string.cpp:415-599 *)
Definition wrapped (s : string) (width : N) (lines : list string) : Prop :=
  word_wrap true false (str s) width = Ok (List.map str lines) /\ word_wrap true true (str s) width = Ok (List.map str lines).
Example test_word_wrap :
  wrapped "abcd efgh i jkl mnop" 7 ["abcd"; "efgh i"; "jkl"; "mnop"] /\
  wrapped "abcd efgh i jkl mnop" 0 ["abcd efgh i jkl mnop"] /\
  wrapped "ab cd e " 1 ["a"; "b"; "c"; "d"; "e"] /\
  wrapped "ab cdefghijklmno p" 5 ["ab"; "cdefg"; "hijkl"; "mno p"] /\
  wrapped ("ab cd" ^+ nl ^+ "ef" ^+ nl ^+ " g" ^+ nl ^+ "  h" ^+ nl ^+ "  ijk   " ^+ nl ^+ "lm   no p " ^+ nl ^+ nl ^+ "q" ^+ nl) 5
    ["ab cd"; "ef"; " g"; "  h"; "  ijk"; "   "; "lm"; "  no"; "p "; ""; "q"; ""].
Proof. vm_compute. repeat split. Qed.

(** string.cpp:601-710 *)
Example test_make_string_from :
  let mem := str "xxHello world!yy" in let arr := Cont (Some 2%nat) 12 in
  make_string_char mem (TextModel.make_span arr) = Ok (str "Hello world!") /\ make_string_uint8 mem (TextModel.make_span arr) = Ok (str "Hello world!") /\
  make_string_view (TextModel.make_span arr) = arr /\ make_string_view (TextModel.span_of arr) = arr /\
  make_string_cont_char mem arr = Ok (str "Hello world!") /\ make_string_cont_uint8 mem arr = Ok (str "Hello world!").
Proof. vm_compute. repeat split. Qed.

(** string.cpp:712-746, 932-962. The nearest patterns of 3.14159 and 2.7 are those gcc has. *)
Definition converted (t : target) (s : string) : outcome (list Z * FloatParseModel.errc * option Z) :=
  r <- utki_from_chars (lw := x86_64) t ToNearest general (zstr s) ;; Ok (res_rest r, res_ec r, res_value r).
Example test_from_chars :
  converted Float "3.14159  " = Ok (zstr "  ", NoError, Some 0x40490fd0%Z) /\
  converted Double "3.14159  " = Ok (zstr "  ", NoError, Some 0x400921f9f01b866e%Z) /\
  converted Float "5.47382e-48" = Ok ([], FloatParseModel.OutOfRange, Some 0%Z) /\
  read_floating (lw := x86_64) true Float ToNearest (zstr "5.47382e-48") = ([], Ok 0%Z).
Proof. vm_compute. repeat split. Qed.

(** string.cpp:748-930: the whole sequence of calls; [at_ c] is the check of peek_char *)
Definition u32 := {| is_signed := false; bits := 32 |}.
Definition i32 := {| is_signed := true; bits := 32 |}.
Definition code (c : ascii) : Z := Z.of_N (N_of_ascii c).
Definition at_ (c : ascii) : ParserModel.op bool := x <~ peek_char ;; ret (x =? code c)%Z.
Definition text (s : string) (m : ParserModel.op (list Z)) : ParserModel.op bool :=
  w <~ m ;; ret (text_eqb (List.map Z.to_N w) (str s)).
Definition num (v : Z) (m : ParserModel.op Z) : ParserModel.op bool := w <~ m ;; ret (w =? v)%Z.
Definition do_ (m : ParserModel.op unit) : ParserModel.op bool := m ;;~ ret true.
Fixpoint all_true (l : list (ParserModel.op bool)) : ParserModel.op bool :=
  match l with [] => ret true | m :: l => b <~ m ;; if (b : bool) then all_true l else ret false end.
Example test_string_parser :
  all_true [ num 0x40490fd0%Z (read_floating (lw := x86_64) true Float ToNearest); at_ ","; do_ skip_whitespaces_and_comma; at_ "s";
    text "some_word" (read_word_until (code ",")); at_ ","; num (code ",") read_char;
    do_ skip_whitespaces; text "bla" read_word; at_ " "; do_ skip_whitespaces_and_comma; at_ "b";
    do_ (skip_inclusive_until (code "=")); at_ "2"; num 0x400599999999999a%Z (read_floating (lw := x86_64) true Double ToNearest); at_ " ";
    do_ skip_whitespaces; text "and" read_word; at_ " "; do_ skip_whitespaces; text "that's" read_word; at_ " ";
    do_ skip_whitespaces; text "it," read_word; do_ skip_whitespaces; num 13%Z (read_number true i32); at_ ",";
    do_ skip_whitespaces_and_comma; num (-13)%Z (read_number true i32); at_ ",";
    do_ skip_whitespaces_and_comma; num 13%Z (read_number true u32); at_ ",";
    do_ skip_whitespaces_and_comma; num 13%Z (read_number true u32); at_ ",";
    do_ skip_whitespaces_and_comma; num 13%Z (read_number true u32)]
    (zstr "  3.14159, some_word, bla , bla e=2.7 and that's it, 13, -13, 0b1101, 015, 0xd") = ([], Ok true) /\
  all_true [ at_ "H"; num (code "o") (skip_inclusive_until_one_of (zstr "Wo")); at_ " ";
    num (code "W") (skip_inclusive_until_one_of (zstr "Wo")); at_ "o"; num 0%Z (skip_inclusive_until_one_of (zstr "Wnm"))]
    (zstr "Hello _ World!") = ([], Ok true) /\
  all_true [ at_ "H"; num 0%Z (skip_inclusive_until_one_of [])] (zstr "Hello _ World!") = ([], Ok true).
Proof. vm_compute. repeat split. Qed.

(** string.cpp:964-1035 *)
Definition u64 := {| is_signed := false; bits := 64 |}.
Example test_to_string :
  let values := [0; 1; 13; 2 ^ 32 - 1]%Z in
  List.map (fun v => to_string true u64 v dec) values = List.map (fun s => Ok (zstr s)) ["0"; "1"; "13"; "4294967295"] /\
  List.map (fun v => to_string true u64 v hex) values = List.map (fun s => Ok (zstr s)) ["0x0"; "0x1"; "0xd"; "0xffffffff"] /\
  List.map (fun v => to_string true u64 v oct) values = List.map (fun s => Ok (zstr s)) ["00"; "01"; "015"; "037777777777"] /\
  List.map (fun v => to_string true u64 v bin) values = List.map (fun s => Ok (zstr s)) ["0b0"; "0b1"; "0b1101"; "0b11111111111111111111111111111111"].
Proof. vm_compute. repeat split. Qed.

(** string.cpp:1037-1042 *)
Definition put (s : string) : TextModel.arg unit := fun f => (str s, f, true).
Example test_cat :
  cat tt [] = str "" /\ cat tt [put "hello "] = str "hello " /\ cat tt [put "num = "; put "1234"] = str "num = 1234" /\
  cat tt [put "hello "; put "world"; put "!"] = str "hello world!".
Proof. vm_compute. repeat split. Qed.

(** string.cpp:1044-1106 *)
Example test_trim_etc :
  let s := zstr (nl ^+ "  hello world " ^+ tab ^+ nl) in
  trim_front s = Ok (zstr ("hello world " ^+ tab ^+ nl)) /\ trim_back s = Ok (zstr (nl ^+ "  hello world")) /\ StringModel.trim s = Ok (zstr "hello world") /\
  List.map (fun p => make_indentation (fst p) (snd p)) [(0, 1); (0, 2); (1, 1); (2, 1); (1, 2); (2, 2); (3, 2); (2, 3); (0, 0); (1, 0); (2, 0); (3, 0)] =
    List.map str [""; ""; " "; "  "; "  "; "    "; "      "; "      "; ""; tab; tab ^+ tab; tab ^+ tab ^+ tab] /\
  (forall cpp20,
    List.map (fun p => starts_with N.eqb cpp20 (str (fst p)) (str (snd p)))
      [("asdfghjk", "asd"); (" s asdfghjk", "  asd"); ("asdfghjk", ""); ("", "asd"); (" asdfghjk", "asd"); ("a", "asd")] =
      [true; false; true; false; false; false] /\
    List.map (fun p => ends_with N.eqb cpp20 (str (fst p)) (str (snd p)))
      [("asdfghjk", "hjk"); (" s asdfghjk", "  asdfghjk"); ("asdfghjk", ""); ("", "asd"); (" asdfghjk ", "hjk"); ("k", "hjk")] =
      [true; false; true; false; false; false]).
Proof. split; [vm_compute; reflexivity|]. repeat split; try (vm_compute; reflexivity); destruct cpp20; vm_compute; reflexivity. Qed.
