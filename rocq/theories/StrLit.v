(** String literals as lists of character codes, for examples. *)
From Verif Require Import Base.
From Coq Require Import String Ascii.

Definition str (s : string) : list N := List.map N_of_ascii (list_ascii_of_string s).
Definition zstr (s : string) : list Z := List.map (fun c => Z.of_N (N_of_ascii c)) (list_ascii_of_string s).
