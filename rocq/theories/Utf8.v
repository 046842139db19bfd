(** UTF-8 validity, decoding, encoding and the char-boundary rule of [str] slicing
    (core::str, used throughout src/protocol.rs). *)
From Verif Require Import Base.

Local Open Scope N_scope.

(** Byte ranges of the UTF-8 table in [core::str::validations]. *)
Definition in_range (lo hi : N) (b : byte) : bool := (lo <=? bval b) && (bval b <=? hi).
(** Continuation byte 0x80..0xBF. *)
Definition is_cont (b : byte) : bool := in_range 128 191 b.

(** Prepend to an optional list; helper of [utf8_decode]. *)
Definition ocons (n : N) (o : option (list N)) : option (list N) :=
  match o with Some l => Some (n :: l) | None => None end.

(** First two bytes of a three-byte sequence ([core::str::validations], no surrogates, not overlong). *)
Definition ok3 (a b : byte) : bool :=
  ((bval a =? 224) && in_range 160 191 b)
  || (in_range 225 236 a && is_cont b)
  || ((bval a =? 237) && in_range 128 159 b)
  || (in_range 238 239 a && is_cont b).

(** First two bytes of a four-byte sequence (not overlong, at most U+10FFFF). *)
Definition ok4 (a b : byte) : bool :=
  ((bval a =? 240) && in_range 144 191 b)
  || (in_range 241 243 a && is_cont b)
  || ((bval a =? 244) && in_range 128 143 b).

(** [core::str::from_utf8] followed by [str::chars]: [None] exactly for ill-formed UTF-8
    (Unicode table 3-7). Used by src/protocol.rs 252. *)
Fixpoint utf8_decode (s : bytes) : option (list N) :=
  match s with
  | [] => Some []
  | a :: t =>
    if bval a <? 128 then ocons (bval a) (utf8_decode t) else
    match t with
    | [] => None
    | b :: t2 =>
      if in_range 194 223 a then
        if is_cont b then ocons ((bval a - 192) * 64 + (bval b - 128)) (utf8_decode t2) else None
      else
        match t2 with
        | [] => None
        | c :: t3 =>
          if ok3 a b then
            if is_cont c then
              ocons ((bval a - 224) * 4096 + (bval b - 128) * 64 + (bval c - 128)) (utf8_decode t3)
            else None
          else
            match t3 with
            | [] => None
            | d :: t4 =>
              if ok4 a b && is_cont c && is_cont d then
                ocons ((bval a - 240) * 262144 + (bval b - 128) * 4096 + (bval c - 128) * 64
                       + (bval d - 128)) (utf8_decode t4)
              else None
            end
        end
    end
  end.

(** [str::from_utf8(..).is_ok()], src/protocol.rs 252. *)
Definition utf8_valid (s : bytes) : bool :=
  match utf8_decode s with Some _ => true | None => false end.

(** [n as u8] for [n < 256]. *)
Definition byte_of (n : N) : byte :=
  match Byte.of_N n with Some b => b | None => x00 end.

(** [char::encode_utf8]. *)
Definition encode_char (n : N) : bytes :=
  if n <? 128 then [byte_of n]
  else if n <? 2048 then [byte_of (192 + n / 64); byte_of (128 + n mod 64)]
  else if n <? 65536 then
    [byte_of (224 + n / 4096); byte_of (128 + (n / 64) mod 64); byte_of (128 + n mod 64)]
  else
    [byte_of (240 + n / 262144); byte_of (128 + (n / 4096) mod 64);
     byte_of (128 + (n / 64) mod 64); byte_of (128 + n mod 64)].

(** [chars.collect::<String>()]. *)
Definition utf8_encode (l : list N) : bytes := flat_map encode_char l.

(** Unicode scalar value, i.e. a Rust [char]. *)
Definition scalar (n : N) : bool := (n <? 55296) || ((57344 <=? n) && (n <? 1114112)).

(** [str::is_char_boundary]. *)
Definition is_boundary (s : bytes) (i : nat) : bool :=
  (i =? 0)%nat || (i =? length s)%nat ||
  match nth_error s i with Some b => negb (is_cont b) | None => false end.

(** [&s[i..j]] on a [str]: panics when out of range or not on char boundaries. *)
Definition str_slice (s : bytes) (i j : nat) : res bytes :=
  if ((i <=? j)%nat && (j <=? length s)%nat && is_boundary s i && is_boundary s j)
  then Ok (firstn (j - i) (skipn i s)) else Panic.

(** [&s[i..]]. *)
Definition str_from (s : bytes) (i : nat) : res bytes := str_slice s i (length s).

(** [str::is_ascii]; used in statements only. *)
Definition ascii (s : bytes) : bool := forallb (fun b => bval b <? 128) s.
