(** Specification of chunked encoding on the wire. *)
From Verif Require Import Base Io NumLemmas Transport.

(** [chunked_wire payload wire]: [wire] is a well-formed chunked encoding of [payload], up to and
    including the CR LF of the last-chunk line: chunks `HEX CRLF data CRLF` with non-empty data, then
    a line spelling zero. Sizes are in hexadecimal, either case, leading zeros allowed. *)
Inductive chunked_wire : bytes -> bytes -> Prop :=
| cw_last z : numeral 16 z 0 -> chunked_wire [] (z ++ CRLF)
| cw_chunk h data p w :
    data <> [] -> numeral 16 h (N.of_nat (length data)) -> (N.of_nat (length data) <= u64_max)%N ->
    chunked_wire p w ->
    chunked_wire (data ++ p) (h ++ CRLF ++ data ++ CRLF ++ w).

(** What the crate accepts as a size line: an optional plus sign, hexadecimal digits, in u64 range. *)
Definition size_line (l : bytes) (n : N) : Prop :=
  (n <= u64_max)%N /\ (numeral 16 l n \/ exists t, l = x2b :: t /\ numeral 16 t n).

(** [loose_wire payload wire]: the language the crate accepts; the two bytes after the data are
    arbitrary. *)
Inductive loose_wire : bytes -> bytes -> Prop :=
| lw_last z : size_line z 0 -> loose_wire [] (z ++ CRLF)
| lw_chunk h data a b p w :
    data <> [] -> size_line h (N.of_nat (length data)) -> loose_wire p w ->
    loose_wire (data ++ p) (h ++ CRLF ++ data ++ [a; b] ++ w).

(** [partial_wire payload wire]: [wire] stops in the middle: some complete chunks, then an incomplete
    size line, or a size line with too few data bytes, or a chunk without its two closing bytes.
    [payload] are the data bytes it contains. *)
Inductive partial_wire : bytes -> bytes -> Prop :=
| pw_line l : no_crlf l -> partial_wire [] l
| pw_data h n data :
    size_line h n -> (N.of_nat (length data) < n)%N -> partial_wire data (h ++ CRLF ++ data)
| pw_close h data sep :
    data <> [] -> size_line h (N.of_nat (length data)) -> length sep < 2 ->
    partial_wire data (h ++ CRLF ++ data ++ sep)
| pw_chunk h data a b p w :
    data <> [] -> size_line h (N.of_nat (length data)) -> partial_wire p w ->
    partial_wire (data ++ p) (h ++ CRLF ++ data ++ [a; b] ++ w).

(** [bad_wire payload wire]: complete chunks with data [payload], then a complete line that is not a
    size line. *)
Inductive bad_wire : bytes -> bytes -> Prop :=
| bw_line l w : no_crlf l -> ~ (exists n, size_line l n) ->
    bad_wire [] (l ++ CRLF ++ w)
| bw_chunk h data a b p w :
    data <> [] -> size_line h (N.of_nat (length data)) -> bad_wire p w ->
    bad_wire (data ++ p) (h ++ CRLF ++ data ++ [a; b] ++ w).
