(** PyNum: Python's integer literals and format mini-language, as used by /repo.
    Models the runtime, not a line of /repo; the literal format strings of
    /repo/ofpstr/oxm.py:910-1289 are interpreted by [fmt_segs]/[fmt_run]. *)
From Verif Require Import Base.

Definition is_dec (c : Z) : bool := (48 <=? c) && (c <=? 57).
Definition is_oct (c : Z) : bool := (48 <=? c) && (c <=? 55).
Definition is_hexl (c : Z) : bool := (97 <=? c) && (c <=? 102).
Definition is_hexu (c : Z) : bool := (65 <=? c) && (c <=? 70).
Definition is_hex (c : Z) : bool := is_dec c || is_hexl c || is_hexu c.

Definition digit_val (c : Z) : Z :=
  if is_dec c then c - 48 else if is_hexl c then c - 87 else c - 55.

(** value of a digit string in base [b] *)
Definition digits_val (b : Z) (s : text) : Z :=
  fold_left (fun v c => v * b + digit_val c) s 0.

(** [int(s, b)] on a string already known to hold only digits of base [b]
    (what parseInt passes): empty raises ValueError.
    Simplification: CPython's 4300-digit limit on decimal strings is not modelled. *)
Definition int_digits (b : Z) (s : text) : res Z :=
  match s with [] => Raise ValueError | _ => Ok (digits_val b s) end.

(** ASCII and Unicode white space: [str.isspace], also [\s] of [re] on str *)
Definition is_space (c : Z) : bool :=
  ((9 <=? c) && (c <=? 13)) || ((28 <=? c) && (c <=? 32)) || (c =? 133) || (c =? 160)
  || (c =? 5760) || ((8192 <=? c) && (c <=? 8202)) || (c =? 8232) || (c =? 8233)
  || (c =? 8239) || (c =? 8287) || (c =? 12288).

(** what [int] strips: of the ASCII characters only those of C's isspace *)
Definition is_int_space (c : Z) : bool := is_space c && negb ((28 <=? c) && (c <=? 31)).
Definition strip (s : text) : text := rev (drop_while is_int_space (rev (drop_while is_int_space s))).

(** the zeros of the decimal digits (category Nd) of Unicode 14.0; nine more follow each *)
Definition dec_zeros : list Z :=
  [48; 1632; 1776; 1984; 2406; 2534; 2662; 2790; 2918; 3046; 3174; 3302; 3430; 3558; 3664; 3792;
  3872; 4160; 4240; 6112; 6160; 6470; 6608; 6784; 6800; 6992; 7088; 7232; 7248; 42528; 43216;
  43264; 43472; 43504; 43600; 44016; 65296; 66720; 68912; 69734; 69872; 69942; 70096; 70384; 70736;
  70864; 71248; 71360; 71472; 71904; 72016; 72784; 73040; 73120; 92768; 92864; 93008; 120782;
  120792; 120802; 120812; 120822; 123200; 123632; 125264; 130032].
Definition dec_value (c : Z) : option Z :=
  option_map (fun z => c - z) (find (fun z => (z <=? c) && (c <=? z + 9)) dec_zeros).
(** digits with single underscores between them, as ASCII digits *)
Fixpoint us_digits (need : bool) (s : text) : option text :=
  match s with
  | [] => if need then None else Some []
  | c :: s' =>
      match dec_value c with
      | Some d => option_map (cons (48 + d)) (us_digits false s')
      | None => if (c =? 95) && negb need then us_digits true s' else None
      end
  end.
(** [int(s)] for a decimal str: surrounding white space, sign, underscores,
    decimal digits of any script. *)
Definition py_int (s : text) : res Z :=
  let s := strip s in
  let '(neg, d) := match s with
                   | 45 :: r => (true, r)
                   | 43 :: r => (false, r)
                   | _ => (false, s)
                   end in
  match us_digits true d with
  | Some ds => Ok (if neg : bool then - digits_val 10 ds else digits_val 10 ds)
  | None => Raise ValueError
  end.

(** ** Printing *)
Definition digit_char (d : Z) : Z := if d <? 10 then 48 + d else 87 + d.

(** digits of [n >= 0] in base [b], most significant first, at least one *)
Fixpoint digits_fuel (fuel : nat) (b n : Z) (acc : text) : text :=
  match fuel with
  | O => acc
  | S f => if n <? b then digit_char n :: acc
           else digits_fuel f b (n / b) (digit_char (n mod b) :: acc)
  end.
Definition digits (b n : Z) : text := digits_fuel (S (Z.to_nat (Z.log2 n))) b n [].

Definition pad0 (w : nat) (s : text) : text := repeat 48 (w - length s) ++ s.

(** ["{:d}".format(n)] *)
Definition fmt_d (n : Z) : text := if n <? 0 then 45 :: digits 10 (- n) else digits 10 n.
(** ["{:#0wx}".format(n)] ([w = 0]: ["{:#x}"]) *)
Definition fmt_x (w : nat) (n : Z) : text :=
  if n <? 0 then $"-0x" ++ pad0 (w - 3) (digits 16 (- n))
  else $"0x" ++ pad0 (w - 2) (digits 16 n).
(** ["{:02x}".format(n)], n >= 0 *)
Definition fmt_02x (n : Z) : text := pad0 2 (digits 16 n).

(** ** str.format on the literal format strings of oxm.py *)
Inductive hole := HD | HX (w : nat).
Inductive seg := SLit (c : Z) | SHole (h : hole).

(** the replacement fields that occur in oxm.py (an integer argument each) *)
Definition holes : list (text * hole) :=
  [ ($"{:d}", HD); ($"{:#d}", HD); ($"{:#x}", HX 0); ($"{:#02x}", HX 2); ($"{:#04x}", HX 4);
    ($"{:#06x}", HX 6); ($"{:#010x}", HX 10) ].
Fixpoint find_hole (l : list (text * hole)) (s : text) : option (nat * hole) :=
  match l with
  | [] => None
  | (k, h) :: l' => if startswith k s then Some (length k, h) else find_hole l' s
  end.
(** [skip] = characters of the current replacement field still to be skipped *)
Fixpoint fmt_segs_go (skip : nat) (s : text) : list seg :=
  match s with
  | [] => []
  | c :: s' =>
      match skip with
      | S k => fmt_segs_go k s'
      | O => match find_hole holes s with
             | Some (n, h) => SHole h :: fmt_segs_go (n - 1) s'
             | None => SLit c :: fmt_segs_go 0 s'
             end
      end
  end.
Definition fmt_segs (s : text) : list seg := fmt_segs_go 0 s.
Definition fmt_hole (h : hole) (n : Z) : text :=
  match h with HD => fmt_d n | HX w => fmt_x w n end.
(** extra arguments are ignored, a missing one raises IndexError *)
Fixpoint fmt_run (l : list seg) (args : list Z) : res text :=
  match l with
  | [] => Ok []
  | SLit c :: l' => r <- fmt_run l' args ;; Ok (c :: r)
  | SHole h :: l' =>
      match args with
      | [] => Raise IndexError
      | a :: args' => r <- fmt_run l' args' ;; Ok (fmt_hole h a ++ r)
      end
  end.
(** [fmt.format( *args )] *)
Definition py_format (fmt : text) (args : list Z) : res text := fmt_run (fmt_segs fmt) args.
