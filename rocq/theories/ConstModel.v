(** Model of the constants of src/utki/type_traits.hpp:41-57 and utility.hpp:49-60, and of the questions about terminals,
    utility.cpp:41-69 and utility.hpp:578-621. *)
From Verif Require Import Base FloatSpec FloatFastModel MathModel.
Local Open Scope Z_scope.

(** type_traits.hpp:41-57; num_bits_in_byte and num_bits_in_nibble are the deprecated names. *)
Definition num_bits_in_byte : Z := 8.
Definition byte_bits : Z := 8.
Definition num_bits_in_nibble : Z := Z.quot byte_bits 2.
Definition nibble_bits : Z := Z.quot byte_bits 2.
Definition lower_nibble_mask : Z := 0xf.
Definition upper_nibble_mask : Z := 0xf0.
Definition byte_mask : Z := 0xff.
Definition bit_0_mask : Z := 0x01.
Definition bit_1_mask : Z := 0x02.
Definition bit_2_mask : Z := 0x04.
Definition bit_3_mask : Z := 0x08.
Definition bit_4_mask : Z := 0x10.
Definition bit_5_mask : Z := 0x20.
Definition bit_6_mask : Z := 0x40.
Definition bit_7_mask : Z := 0x80.
(** utility.hpp:52-60 *)
Definition kilobyte : Z := 1024.
Definition cm_per_inch : fp := literal 254 100.
Definition mm_per_inch : fp := fp_mul binary64 ToNearest cm_per_inch (fp_of_int binary64 ToNearest 10).
Definition hundred_percent : Z := 100.

(** The standard streams, the descriptor of each of them (-1 for a stream without one), and the files open in the process:
    for each descriptor whether it refers to a terminal. isatty returns 1, or 0 with an error in errno. *)
Inductive stream := Stdin | Stdout | Stderr.
Record process := { descriptor : stream -> Z; open_files : list (Z * bool) }.
Definition fileno (p : process) (s : stream) : Z := descriptor p s.
Definition isatty (p : process) (fd : Z) : Z :=
  match find (fun e => fst e =? fd) (open_files p) with Some (_, true) => 1 | _ => 0 end.
(** utility.cpp:41-49, 51-59, 61-69: int converted to bool *)
Definition is_terminal_cerr (p : process) : bool := negb (isatty p (fileno p Stderr) =? 0).
Definition is_terminal_cout (p : process) : bool := negb (isatty p (fileno p Stdout) =? 0).
Definition is_terminal_cin (p : process) : bool := negb (isatty p (fileno p Stdin) =? 0).
(** utility.hpp:586-591, 601-606, 616-621 *)
Definition is_cerr_terminal (p : process) : bool := is_terminal_cerr p.
Definition is_cout_terminal (p : process) : bool := is_terminal_cout p.
Definition is_cin_terminal (p : process) : bool := is_terminal_cin p.
