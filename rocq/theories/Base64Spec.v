(** Specification of base64 (RFC 4648, section 4), written with bit strings and without
    reference to the model in Base64Model.v. *)
From Verif Require Import Base.
From Coq Require Import String Ascii.
Local Open Scope N_scope.

(** The alphabet, RFC 4648 table 1. *)
Definition alphabet : list N :=
  List.map N_of_ascii
    (list_ascii_of_string "ABCDEFGHIJKLMNOPQRSTUVWXYZabcdefghijklmnopqrstuvwxyz0123456789+/").

Definition pad_char : N := N_of_ascii "=".

(** Bits, most significant first. *)
Definition bits_of (width : nat) (v : N) : list bool :=
  List.map (fun i => N.testbit v (N.of_nat i)) (rev (seq 0 width)).

Definition of_bits (l : list bool) : N :=
  fold_left (fun acc b => 2 * acc + N.b2n b) l 0.

(** Groups of six bits, the last one completed with zero bits. *)
Fixpoint sextets (l : list bool) : list N :=
  match l with
  | a :: b :: c :: d :: e :: f :: r => of_bits [a; b; c; d; e; f] :: sextets r
  | [] => []
  | part => [of_bits (part ++ repeat false (6 - List.length part))]
  end.

(** Groups of eight bits; an incomplete last group is dropped. *)
Fixpoint octets (l : list bool) : list N :=
  match l with
  | a :: b :: c :: d :: e :: f :: g :: h :: r => of_bits [a; b; c; d; e; f; g; h] :: octets r
  | _ => []
  end.

Definition byte_bits (bs : list N) : list bool := flat_map (bits_of 8) bs.

(** Encoding without and with padding. *)
Definition encode_unpadded (bs : list N) : list N :=
  List.map (fun v => nth (N.to_nat v) alphabet 0) (sextets (byte_bits bs)).

Definition encode (bs : list N) : list N :=
  encode_unpadded bs ++
  repeat pad_char (match Nat.modulo (List.length bs) 3 with 1%nat => 2%nat | 2%nat => 1%nat | _ => 0%nat end).

(** Position of a character in the alphabet. *)
Fixpoint index_in (l : list N) (c : N) : option N :=
  match l with
  | [] => None
  | x :: r => if x =? c then Some 0 else option_map N.succ (index_in r c)
  end.

Definition in_alphabet (c : N) : Prop := index_in alphabet c <> None.

(** The value of a character: its position in the alphabet, and 0 for a foreign character. *)
Definition char_value (c : N) : N :=
  match index_in alphabet c with Some v => v | None => 0 end.

(** Bytes denoted by a sequence of data characters. *)
Definition denoted (cs : list N) : list N :=
  octets (flat_map (fun c => bits_of 6 (char_value c)) cs).

(** [ends_with_pad k s]: the last [k] characters of [s] are '='. *)
Definition ends_with_pad (k : nat) (s : list N) : Prop :=
  exists p, s = p ++ repeat pad_char k.

(** ** What base64_decode does on an arbitrary string *)

(** Does the string end with [k] pad characters? *)
Definition has_pad (k : nat) (s : list N) : bool :=
  Nat.leb k (List.length s) &&
  forallb (fun c => c =? pad_char) (skipn (List.length s - k) s).

(** The characters that are looked at as data. Without a final '=': all. With a final '=':
    one or two '=' are removed and then at most the last group's first three characters are used. *)
Definition data_chars (s : list N) : list N :=
  let n := List.length s in
  let upto := (4 * (n / 4) - 1)%nat in
  if has_pad 2 s then firstn upto (firstn (n - 2) s)
  else if has_pad 1 s then firstn upto (firstn (n - 1) s)
  else s.

(** Characters that can be looked up: any when char is unsigned, ASCII when it is signed. *)
Definition readable (signed_char : bool) (c : N) : bool :=
  negb (signed_char && (128 <=? c)).

(** A data part of length 1 modulo 4 leaves one dangling character. *)
Definition dangling (d : list N) : bool := Nat.eqb (Nat.modulo (List.length d) 4) 1.

Definition expected (signed_char dbg : bool) (s : list N) : outcome (list N) :=
  if has_pad 1 s && Nat.ltb (List.length s) 4 then Throw InvalidArgument
  else
    let d := data_chars s in
    let looked_up := if dangling d then removelast d else d in
    if negb (forallb (readable signed_char) looked_up) then UB OutOfBounds
    else if dangling d then (if dbg then Abort else UB OutOfBounds)
    else Ok (denoted d).

(** Replacing a character that does not belong into base64 text by 'A'; characters with the top
    bit set are left alone. *)
Definition neutralize (c : N) : N :=
  match index_in alphabet c with
  | Some _ => c
  | None => if (c =? pad_char) || (128 <=? c) then c else N_of_ascii "A"
  end.
