(** Integer parsing and printing (core::num, core::fmt) as used by src/protocol.rs 50, 352, 404, 1600,
    1834, 1876. *)
From Verif Require Import Base Utf8.
Local Open Scope N_scope.

(** [char::to_digit]. *)
Definition to_digit (radix : N) (c : byte) : option N :=
  let v := bval c in
  let d := if (48 <=? v) && (v <=? 57) then v - 48
           else if (97 <=? v) && (v <=? 122) then v - 97 + 10
           else if (65 <=? v) && (v <=? 90) then v - 65 + 10
           else 1000 in
  if d <? radix then Some d else None.

(** The digit loop of [from_str_radix]: checked multiply and add, so overflow is an error. *)
Fixpoint parse_digits (radix max acc : N) (s : bytes) : res N :=
  match s with
  | [] => Ok acc
  | c :: t =>
      match to_digit radix c with
      | None => Err (ParseIntError IInvalidDigit)
      | Some d =>
          if acc * radix <=? max then
            if acc * radix + d <=? max then parse_digits radix max (acc * radix + d) t
            else Err (ParseIntError IPosOverflow)
          else Err (ParseIntError IPosOverflow)
      end
  end.

(** [uN::from_str_radix]: empty input, a lone sign, one optional leading plus; for unsigned types a
    minus is an invalid digit. *)
Definition from_str_radix (radix max : N) (s : bytes) : res N :=
  match s with
  | [] => Err (ParseIntError IEmpty)
  | [c] => if Byte.eqb c x2b || Byte.eqb c x2d then Err (ParseIntError IInvalidDigit)
           else parse_digits radix max 0 s
  | c :: t => if Byte.eqb c x2b then parse_digits radix max 0 t else parse_digits radix max 0 s
  end.

(** [str::parse::<u32>] and [str::parse::<u64>]. *)
Definition parse_u32 (s : bytes) : res N := from_str_radix 10 u32_max s.
(** [str::parse::<u64>], src/protocol.rs 1600, 1876. *)
Definition parse_u64 (s : bytes) : res N := from_str_radix 10 u64_max s.

(** [core::fmt] digits: 0-9, then lower-case letters. *)
Definition digit_char (d : N) : byte := byte_of (if d <? 10 then 48 + d else 87 + d).

(** Most significant digit first; [fuel] bounds the number of digits. *)
Fixpoint show_loop (fuel : nat) (radix n : N) (acc : bytes) : bytes :=
  match fuel with
  | O => acc
  | S f => let acc' := digit_char (n mod radix) :: acc in
           if n / radix =? 0 then acc' else show_loop f radix (n / radix) acc'
  end.

(** [{}] and [{:x}] of an unsigned integer: lower-case digits, no leading zeros. *)
Definition show_radix (radix n : N) : bytes := show_loop (S (N.size_nat n)) radix n [].
(** [{}], src/protocol.rs 567, 874. *)
Definition show_dec (n : N) : bytes := show_radix 10 n.
(** [{:x}], src/protocol.rs 1834. *)
Definition show_hex (n : N) : bytes := show_radix 16 n.
