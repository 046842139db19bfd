(** [str::to_lowercase] and [str::to_uppercase] (alloc::str), used by src/protocol.rs 1382, 1393,
    1450, 1456, 1660 and src/url.rs 23. The case tables are those of Unicode 14; the Unicode version
    of the Rust toolchain may differ for code points assigned later. *)
From Verif Require Import Base Utf8 UnicodeTables.
Local Open Scope N_scope.

(** Table lookup (core::unicode's tables are searched by binary search; same result). *)
Fixpoint assocN {A} (l : list (N * A)) (k : N) : option A :=
  match l with
  | [] => None
  | (k', v) :: t => if k =? k' then Some v else assocN t k
  end.

(** Membership in a list of ranges (core::unicode [Cased], [Case_Ignorable]). *)
Definition in_ranges (l : list (N * N)) (c : N) : bool :=
  existsb (fun r => (fst r <=? c) && (c <=? snd r)) l.

(** [char::to_lowercase] and [char::to_uppercase]: characters not in the table map to themselves. *)
Definition lower_char (c : N) : list N :=
  match assocN lower_table c with Some l => l | None => [c] end.
(** [char::to_uppercase], see [lower_char]. *)
Definition upper_char (c : N) : list N :=
  match assocN upper_table c with Some l => l | None => [c] end.

(** alloc::str [case_ignorable_then_cased]. *)
Fixpoint ignorable_then_cased (l : list N) : bool :=
  match l with
  | [] => false
  | c :: t => if in_ranges ignorable_ranges c then ignorable_then_cased t
              else in_ranges cased_ranges c
  end.

(** [str::to_lowercase]: capital sigma (U+03A3) becomes final sigma at the end of a word.
    [before] is the reversed list of preceding characters. *)
Fixpoint lower_chars (before cs : list N) : list N :=
  match cs with
  | [] => []
  | c :: t =>
      (if c =? 931 then
         if negb (ignorable_then_cased t) && ignorable_then_cased before then [962] else [963]
       else lower_char c) ++ lower_chars (c :: before) t
  end.

(** On ill-formed bytes (which no [&str] contains) the model returns its argument. *)
Definition to_lowercase (s : bytes) : bytes :=
  match utf8_decode s with
  | Some cs => utf8_encode (lower_chars [] cs)
  | None => s
  end.

(** [str::to_uppercase], src/protocol.rs 1660. On ill-formed bytes as for [to_lowercase]. *)
Definition to_uppercase (s : bytes) : bytes :=
  match utf8_decode s with
  | Some cs => utf8_encode (flat_map upper_char cs)
  | None => s
  end.
