(** src/protocol.rs 304-415: [Parser]. *)
From Verif Require Import Base Utf8 Num.

(** src/protocol.rs 304-307. *)
Record parser := mkParser { ps : bytes; ppos : nat }.

(** src/protocol.rs 310-312. *)
Definition parser_new (s : bytes) : parser := mkParser s 0.

(** src/protocol.rs 314-330 [expect]. *)
Definition expect (p : parser) (expected : bytes) : res unit * parser :=
  if (length (ps p) <=? ppos p)%nat then (Err UnexpectedEof, p) else
  let start := ppos p in
  let end_ := Nat.min (length (ps p)) (ppos p + length expected) in
  match str_slice (ps p) start end_ with
  | Ok actual =>
      if beqb actual expected then (Ok tt, mkParser (ps p) (ppos p + length expected))
      else (Err ParseError, p)
  | Err e => (Err e, p)
  | Panic => (Panic, p)
  | Fuel => (Fuel, p)
  end.

(** src/protocol.rs 332-343 [parse_char]: the one-byte slice panics on a non-ASCII character. *)
Definition parse_char (p : parser) : res N * parser :=
  if (length (ps p) <=? ppos p)%nat then (Err UnexpectedEof, p) else
  match str_slice (ps p) (ppos p) (ppos p + 1) with
  | Ok sl =>
      match utf8_decode sl with
      | Some (c :: _) => (Ok c, mkParser (ps p) (ppos p + 1))
      | _ => (Panic, p)
      end
  | Err e => (Err e, p)
  | Panic => (Panic, p)
  | Fuel => (Fuel, p)
  end.

(** src/protocol.rs 345-353 [parse_digit]: the position advances even when the digit is invalid. *)
Definition parse_digit (p : parser) : res N * parser :=
  if (length (ps p) <=? ppos p)%nat then (Err UnexpectedEof, p) else
  match str_slice (ps p) (ppos p) (ppos p + 1) with
  | Ok digit => (parse_u32 digit, mkParser (ps p) (ppos p + 1))
  | Err e => (Err e, p)
  | Panic => (Panic, p)
  | Fuel => (Fuel, p)
  end.

(** [str::find(&str)]: byte index of the first occurrence. *)
Fixpoint find_sub (div s : bytes) : option nat :=
  if is_prefix div s then Some 0
  else match s with [] => None | _ :: t => option_map S (find_sub div t) end.

(** [&self.s[self.position..]], shared by the methods below. *)
Definition remaining (p : parser) : res bytes := str_from (ps p) (ppos p).

(** src/protocol.rs 355-366 [parse_until]. *)
Definition parse_until (p : parser) (div : bytes) : res bytes * parser :=
  if (length (ps p) <=? ppos p)%nat then (Err UnexpectedEof, p) else
  match remaining p with
  | Ok rest =>
      match find_sub div rest with
      | None => (Err ParseError, p)
      | Some pos => (str_slice rest 0 pos, mkParser (ps p) (ppos p + pos))
      end
  | Err e => (Err e, p)
  | Panic => (Panic, p)
  | Fuel => (Fuel, p)
  end.

(** [str::find(|c| divs.contains(&c))]: byte offset of the first character in [divs]. *)
Fixpoint find_char (divs : list N) (cs : list N) : option nat :=
  match cs with
  | [] => None
  | c :: t => if existsb (N.eqb c) divs then Some 0
              else option_map (fun k => length (encode_char c) + k) (find_char divs t)
  end.

(** src/protocol.rs 368-379 [parse_until_any]. *)
Definition parse_until_any (p : parser) (divs : list N) : res bytes * parser :=
  if (length (ps p) <=? ppos p)%nat then (Err UnexpectedEof, p) else
  match remaining p with
  | Ok rest =>
      match utf8_decode rest with
      | None => (Panic, p) (* not a str *)
      | Some cs =>
          match find_char divs cs with
          | None => (Err ParseError, p)
          | Some pos => (str_slice rest 0 pos, mkParser (ps p) (ppos p + pos))
          end
      end
  | Err e => (Err e, p)
  | Panic => (Panic, p)
  | Fuel => (Fuel, p)
  end.

(** [c == ' ' || c == '\t'], src/protocol.rs 383-384 and 396. *)
Definition is_blank (b : byte) : bool := Byte.eqb b SP || Byte.eqb b TAB.

(** src/protocol.rs 381-388 [consume_whilespace]. The loop runs at most [fuel] times; callers pass
    the text length, which it cannot exceed. *)
Fixpoint consume_ws (fuel : nat) (p : parser) : res unit * parser :=
  if (ppos p <? length (ps p))%nat then
    match remaining p with
    | Ok (b :: _) =>
        if is_blank b then
          match fuel with
          | O => (Fuel, p)
          | S f => consume_ws f (mkParser (ps p) (ppos p + 1))
          end
        else (Ok tt, p)
    | Ok [] => (Ok tt, p)
    | Err e => (Err e, p)
    | Panic => (Panic, p)
    | Fuel => (Fuel, p)
    end
  else (Ok tt, p).

(** First element of [split(|c| c == ' ' || c == '\t')]. *)
Fixpoint before_blank (s : bytes) : bytes :=
  match s with
  | [] => []
  | b :: t => if is_blank b then [] else b :: before_blank t
  end.

(** src/protocol.rs 390-401 [parse_token]. *)
Definition parse_token (p : parser) : res bytes * parser :=
  if (length (ps p) <=? ppos p)%nat then (Err UnexpectedEof, p) else
  match remaining p with
  | Ok rest =>
      let token := before_blank rest in
      let p1 := mkParser (ps p) (ppos p + length token) in
      dos _, p2 <- consume_ws (length (ps p)) p1; (Ok token, p2)
  | Err e => (Err e, p)
  | Panic => (Panic, p)
  | Fuel => (Fuel, p)
  end.

(** src/protocol.rs 403-405 [parse_number]. *)
Definition parse_number (p : parser) : res N * parser :=
  dos t, p1 <- parse_token p; (parse_u32 t, p1).

(** src/protocol.rs 407-414 [parse_remaining]. *)
Definition parse_remaining (p : parser) : res bytes * parser :=
  if (length (ps p) <? ppos p)%nat then (Err UnexpectedEof, p) else
  match remaining p with
  | Ok rest => (Ok rest, mkParser (ps p) (length (ps p) + 1))
  | Err e => (Err e, p)
  | Panic => (Panic, p)
  | Fuel => (Fuel, p)
  end.
