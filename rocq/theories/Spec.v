(** Spec: the specification the text and number properties are stated with.
    Nothing here is taken from the model (only the types [text], [bytes] and the
    literal notation [$"..."] of Base.v are used). *)
From Verif Require Import Base.
From Coq Require Import Strings.Ascii DecimalString HexadecimalString.

(** a character *)
Definition chr (a : ascii) : Z := Z.of_N (N_of_ascii a).
Arguments chr a%char_scope.

(** ** Separators and brackets *)
(** comma or ASCII white space: what ends a token *)
Definition sep_char (c : Z) : Prop := c = chr "," \/ c = 32 \/ 9 <= c <= 13.
Definition eq_char (c : Z) : Prop := c = chr "=".
(** Unicode white space (category Z plus the control characters), as in [str.isspace] *)
Definition blank (c : Z) : Prop :=
  9 <= c <= 13 \/ 28 <= c <= 32 \/ c = 0x85 \/ c = 0xA0 \/ c = 0x1680 \/ 0x2000 <= c <= 0x200A
  \/ c = 0x2028 \/ c = 0x2029 \/ c = 0x202F \/ c = 0x205F \/ c = 0x3000.

Inductive bracket : Z -> Z -> Prop :=
| br_round  : bracket (chr "(") (chr ")")
| br_curly  : bracket (chr "{") (chr "}")
| br_square : bracket (chr "[") (chr "]")
| br_angle  : bracket (chr "<") (chr ">").
Definition opener (c : Z) : Prop := exists e, bracket c e.

(** sequences of characters allowed by [P] and closed bracket groups; inside a group
    everything but its own closing bracket is allowed *)
Inductive closed : (Z -> Prop) -> text -> Prop :=
| closed_nil (P : Z -> Prop) : closed P []
| closed_chr (P : Z -> Prop) c s : P c -> ~ opener c -> closed P s -> closed P (c :: s)
| closed_grp (P : Z -> Prop) o e g s : bracket o e -> closed (fun c => c <> e) g -> closed P s ->
    closed P (o :: g ++ e :: s).
(** the same, but ending inside at least one group that is never closed *)
Inductive unclosed : (Z -> Prop) -> text -> Prop :=
| unclosed_here (P : Z -> Prop) p o e g : closed P p -> bracket o e -> closed (fun c => c <> e) g ->
    unclosed P (p ++ o :: g)
| unclosed_in (P : Z -> Prop) p o e g : closed P p -> bracket o e -> unclosed (fun c => c <> e) g ->
    unclosed P (p ++ o :: g).
(** outside brackets a token has no separator and no "=" *)
Definition token_char (c : Z) : Prop := ~ sep_char c /\ ~ eq_char c.
Definition token (s : text) : Prop := closed token_char s.
Definition unfinished_token (s : text) : Prop := unclosed token_char s.

(** what may stand before a token: blanks and commas, or one "=" with blanks around *)
Definition lead (h : text) : Prop :=
  Forall (fun c => blank c \/ c = chr ",") h
  \/ exists a b, Forall blank a /\ Forall blank b /\ h = a ++ chr "=" :: b.
(** the end of the text, or a character that ends a token *)
Definition ends (r : text) : Prop :=
  match r with [] => True | c :: _ => sep_char c \/ eq_char c end.
(** a token that no part of a lead can be taken from *)
Definition solid (s : text) : Prop := match s with [] => False | c :: _ => ~ blank c end.

(** ** Integers *)
Definition dec (n : Z) : text := s2t (DecimalString.NilZero.string_of_int (Z.to_int n)).
Definition hex_digits (n : Z) : text :=
  s2t (HexadecimalString.NilZero.string_of_uint (N.to_hex_uint (Z.to_N n))).
Definition zpad (w : nat) (s : text) : text := repeat (chr "0") (w - length s) ++ s.
(** 0x..., with at least [w] digits *)
Definition hexw (w : nat) (n : Z) : text := $"0x" ++ zpad w (hex_digits n).
Definition hex (n : Z) : text := hexw 0 n.

(** value of a digit *)
Definition digit (c : Z) : option Z :=
  if (chr "0" <=? c) && (c <=? chr "9") then Some (c - chr "0")
  else if (chr "a" <=? c) && (c <=? chr "f") then Some (c - chr "a" + 10)
  else if (chr "A" <=? c) && (c <=? chr "F") then Some (c - chr "A" + 10)
  else None.
Definition digit_in (b c : Z) : Prop := exists d, digit c = Some d /\ d < b.
(** value of a digit string, most significant digit first *)
Fixpoint value (b : Z) (s : text) : Z :=
  match s with
  | [] => 0
  | c :: s' => match digit c with Some d => d | None => 0 end * b ^ Z.of_nat (length s') + value b s'
  end.
Definition numeral (b : Z) (s : text) : Prop := s <> [] /\ Forall (digit_in b) s.
(** [r] does not go on with a digit of base [b] *)
Definition stops (b : Z) (r : text) : Prop := match r with [] => True | c :: _ => ~ digit_in b c end.

(** [reads u v l]: the first [l] characters of [u] are an integer literal of value
    [v] that cannot be extended *)
Inductive reads : text -> Z -> nat -> Prop :=
| reads_neg ds r : numeral 10 ds -> stops 10 r ->
    reads (chr "-" :: ds ++ r) (- value 10 ds) (1 + length ds)
| reads_hex x ds r : x = chr "x" \/ x = chr "X" -> numeral 16 ds -> stops 16 r ->
    reads (chr "0" :: x :: ds ++ r) (value 16 ds) (2 + length ds)
| reads_oct ds r : numeral 8 ds -> stops 8 r ->
    reads (chr "0" :: ds ++ r) (value 8 ds) (1 + length ds)
| reads_dec ds r : numeral 10 ds -> stops 10 r ->
    (forall d ds', ds = chr "0" :: d :: ds' -> ~ digit_in 8 d) ->
    (forall x r', ds = [chr "0"] -> r = x :: r' -> x <> chr "x" /\ x <> chr "X") ->
    reads (ds ++ r) (value 10 ds) (length ds).

(** ** Byte order *)
Definition byte_of (z : Z) : byte :=
  match Byte.of_N (Z.to_N (z mod 256)) with Some b => b | None => x00 end.
(** [n] bytes, most significant first, of the integer [v] modulo 2^(8n) *)
Fixpoint be (n : nat) (v : Z) : bytes :=
  match n with O => [] | S n' => be n' (v / 256) ++ [byte_of v] end.
(** least significant first *)
Fixpoint le (n : nat) (v : Z) : bytes :=
  match n with O => [] | S n' => byte_of v :: le n' (v / 256) end.
Definition byte_val (b : byte) : Z := Z.of_N (Byte.to_N b).
(** the number a big-endian byte string stands for *)
Fixpoint num_be (l : bytes) : Z :=
  match l with [] => 0 | b :: l' => byte_val b * 256 ^ Z.of_nat (length l') + num_be l' end.
Fixpoint num_le (l : bytes) : Z :=
  match l with [] => 0 | b :: l' => byte_val b + 256 * num_le l' end.
Definition pad (n : nat) : bytes := repeat x00 n.
(** zero padding up to a multiple of 8 *)
Definition pad_to8 (n : nat) : bytes := pad ((8 - n mod 8) mod 8).
