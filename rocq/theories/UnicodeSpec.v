(** UTF-8 as arithmetic on code points, independent of the code. *)
From Verif Require Import Base.
Local Open Scope N_scope.

(** Continuation byte 10xxxxxx with the six bits number [k] (from the least significant) of [c]. *)
Definition tailb (c : N) (k : N) : N := 128 + c / 64 ^ k mod 64.

(** The original UTF-8 encoding of 0..0x7fffffff; up to 0x10ffff it is that of RFC 3629. *)
Definition utf8 (c : N) : list N :=
  if c <? 2 ^ 7 then [c]
  else if c <? 2 ^ 11 then [192 + c / 64; tailb c 0]
  else if c <? 2 ^ 16 then [224 + c / 64 ^ 2; tailb c 1; tailb c 0]
  else if c <? 2 ^ 21 then [240 + c / 64 ^ 3; tailb c 2; tailb c 1; tailb c 0]
  else if c <? 2 ^ 26 then [248 + c / 64 ^ 4; tailb c 3; tailb c 2; tailb c 1; tailb c 0]
  else [252 + c / 64 ^ 5; tailb c 4; tailb c 3; tailb c 2; tailb c 1; tailb c 0].

(** Code points that utf8 encodes. *)
Definition encodable (c : N) : Prop := c < 2 ^ 31.
Definition transmitted (c : N) : bool := (0 <? c) && (c <? 2 ^ 31).

(** ** Arbitrary bytes.
    The length a sequence claims to have, decided by its first byte. The code ignores bit 6, so that
    stray continuation bytes are treated like lead bytes. *)
Definition seq_len (b : N) : nat :=
  if b <? 128 then 1
  else
    let m := b mod 64 in
    if m <? 32 then 2 else if m <? 48 then 3 else if m <? 56 then 4
    else if m <? 60 then 5 else if m <? 62 then 6 else if m <? 63 then 7 else 8.

(** Value of a complete sequence of at most 6 bytes: payload of the first byte, then 6 bits each. *)
Definition seq_value (s : list N) : N :=
  match s with
  | [] => 0
  | b :: t =>
      if b <? 128 then b
      else fold_left (fun acc x => 64 * acc + x mod 64) t (b mod 2 ^ (7 - N.of_nat (length s)))
  end.

(** A complete sequence at the front of [p]: [p = s ++ q] where [s] has the length it claims. *)
Definition front_seq (p s q : list N) : Prop :=
  exists b t, s = b :: t /\ p = s ++ q /\ length s = seq_len b.

(** [p] starts with a complete sequence of 7 or 8 bytes: the shift in the decoder is too wide. *)
Definition overlong_front (p : list N) : Prop :=
  exists s q, front_seq p s q /\ (7 <= length s)%nat.

(** [p] is empty or ends inside of the sequence it starts with. *)
Definition truncated (p : list N) : Prop :=
  match p with [] => True | b :: _ => (length p < seq_len b)%nat end.

(** The decoder walks over complete sequences of at most 6 bytes with non-zero values. *)
Inductive walks : list N -> list N -> list N -> Prop :=
| walk_nil p : walks p [] p
| walk_cons p s q c cs r :
    front_seq p s q -> (length s <= 6)%nat -> seq_value s = c -> c <> 0 ->
    walks q cs r -> walks p (c :: cs) r.

(** [p] starts with a complete sequence of at most 6 bytes of value 0. *)
Definition zero_front (p : list N) : Prop :=
  exists s q, front_seq p s q /\ (length s <= 6)%nat /\ seq_value s = 0.

(** The terminator completes the truncated last sequence to one of value 0. *)
Definition nul_completes (q : list N) : Prop :=
  front_seq (q ++ [0]) (q ++ [0]) [] /\ (length q < 6)%nat /\ seq_value (q ++ [0]) = 0.
