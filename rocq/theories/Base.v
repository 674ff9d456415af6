(** Base: Python values the model is written with.

    This file models no line of /repo by itself: it fixes the vocabulary
    (text, bytes, exceptions, slices, str methods) in which the functions of
    /repo/ofpstr are transcribed in the other model files.

    - Python [str]  = [text]  = list of Unicode code points (as [Z]).
    - Python [bytes]/[bytearray] = [bytes] = list of [Byte.byte].
    - Python [int] = [Z] (unbounded); lengths and indices = [nat].
    - A Python call = [res A]: a value, a raised exception, or divergence. *)
From Coq Require Import Strings.Ascii.
From Coq Require Export Strings.String.
From Coq Require Export Init.Byte Strings.Byte.
From Coq Require Export ZArith Lia Bool List.
Export ListNotations.
Open Scope Z_scope.
Open Scope list_scope.

Definition text := list Z.
Definition bytes := list byte.

(** Exceptions the code can raise.  [ValueError] covers its subclass
    binascii.Error, [NameError] its subclass UnboundLocalError. *)
Inductive exn :=
  AssertionError | ValueError | KeyError | IndexError | TypeError
| StructError | NameError | OSError | OverflowError.

(** Outcome of a Python call.  [Diverge] = the call never returns. *)
Inductive res (A : Type) := Ok (a : A) | Raise (e : exn) | Diverge.
Arguments Ok {A} a.
Arguments Raise {A} e.
Arguments Diverge {A}.

Definition bind {A B} (r : res A) (k : A -> res B) : res B :=
  match r with Ok a => k a | Raise e => Raise e | Diverge => Diverge end.
Notation "x <- r ;; k" := (bind r (fun x => k))
  (at level 100, r at next level, right associativity).
Notation "' p <- r ;; k" := (bind r (fun x => let p := x in k))
  (at level 100, p pattern, r at next level, right associativity).

(** Python's [assert b] *)
Definition assert (b : bool) : res unit := if b then Ok tt else Raise AssertionError.
Notation "'assert!' b ;; k" := (bind (assert b) (fun _ => k))
  (at level 100, b at next level, right associativity).

Fixpoint mapM {A B} (f : A -> res B) (l : list A) : res (list B) :=
  match l with
  | [] => Ok []
  | a :: l' => b <- f a ;; bs <- mapM f l' ;; Ok (b :: bs)
  end.

(** ** Text *)
Fixpoint s2t (s : string) : text :=
  match s with
  | EmptyString => []
  | String a s' => Z.of_N (N_of_ascii a) :: s2t s'
  end.
Arguments s2t s%string_scope.
Notation "$ s" := (s2t s%string) (at level 0, s at level 0, format "$ s").

Fixpoint text_eqb (a b : text) : bool :=
  match a, b with
  | [], [] => true
  | x :: a', y :: b' => (x =? y) && text_eqb a' b'
  | _, _ => false
  end.

(** [s.startswith(p)] *)
Fixpoint startswith (p s : text) : bool :=
  match p, s with
  | [], _ => true
  | x :: p', y :: s' => (x =? y) && startswith p' s'
  | _ :: _, [] => false
  end.

(** [c in s] for a single character [c]; also [s.find(c) >= 0] *)
Definition has_char (c : Z) (s : text) : bool := existsb (Z.eqb c) s.

(** [name in (..., ...)] / dict membership over string keys *)
Definition in_names (n : text) (l : list text) : bool := existsb (text_eqb n) l.

(** association lookup ([d[k]] / [d.get(k)]) on string keys *)
Fixpoint assoc_t {A} (n : text) (l : list (text * A)) : option A :=
  match l with
  | [] => None
  | (k, v) :: l' => if text_eqb n k then Some v else assoc_t n l'
  end.
(** association lookup on integer keys *)
Fixpoint assoc_z {A} (n : Z) (l : list (Z * A)) : option A :=
  match l with
  | [] => None
  | (k, v) :: l' => if n =? k then Some v else assoc_z n l'
  end.

(** [tuple.index(name)] *)
Fixpoint index_of (n : text) (l : list text) : res Z :=
  match l with
  | [] => Raise ValueError
  | k :: l' => if text_eqb n k then Ok 0 else i <- index_of n l' ;; Ok (i + 1)
  end.

(** [seq[i]] (non-negative index) *)
Definition py_nth {A} (l : list A) (i : nat) : res A :=
  match nth_error l i with Some a => Ok a | None => Raise IndexError end.

(** [s.split(c, 1)]: text before the first [c], and what follows it, if any *)
Fixpoint split1 (c : Z) (s : text) : text * option text :=
  match s with
  | [] => ([], None)
  | x :: s' => if x =? c then ([], Some s')
               else let '(a, b) := split1 c s' in (x :: a, b)
  end.

(** [s.split(c)] *)
Fixpoint split_all (c : Z) (s : text) : list text :=
  match s with
  | [] => [[]]
  | x :: s' => if x =? c then [] :: split_all c s'
               else match split_all c s' with
                    | h :: t => (x :: h) :: t
                    | [] => [[x]]          (* unreachable: split_all is never [] *)
                    end
  end.

(** [sep.join(l)] *)
Fixpoint join (sep : text) (l : list text) : text :=
  match l with
  | [] => []
  | [a] => a
  | a :: l' => a ++ sep ++ join sep l'
  end.

(** Python slice [s[a:b]] with 0 <= a, 0 <= b (empty when b <= a) *)
Definition slice {A} (a b : nat) (s : list A) : list A := firstn (b - a) (skipn a s).

Fixpoint take_while {A} (f : A -> bool) (s : list A) : list A :=
  match s with
  | [] => []
  | x :: s' => if f x then x :: take_while f s' else []
  end.
Fixpoint drop_while {A} (f : A -> bool) (s : list A) : list A :=
  match s with
  | [] => []
  | x :: s' => if f x then drop_while f s' else s
  end.

(** [str.upper] / [str.lower], used only in comparisons with ASCII words.
    Simplification: besides ASCII letters only the two code points whose
    upper-case is a single ASCII letter are mapped (U+0131 and U+017F), and the
    one whose lower-case is a single ASCII letter (U+212A); every other code
    point is left alone, which cannot change a comparison with an ASCII word
    made of the letters used in this code base. *)
Definition upper_c (c : Z) : Z :=
  if (97 <=? c) && (c <=? 122) then c - 32
  else if c =? 305 then 73 else if c =? 383 then 83 else c.
Definition lower_c (c : Z) : Z :=
  if (65 <=? c) && (c <=? 90) then c + 32
  else if c =? 8490 then 107 else c.
Definition upper (s : text) : text := map upper_c s.
Definition lower (s : text) : text := map lower_c s.

(** ** Bytes *)
Definition b2z (b : byte) : Z := Z.of_N (Byte.to_N b).
(** the byte of an integer already reduced modulo 256 *)
Definition z2b (z : Z) : byte :=
  match Byte.of_N (Z.to_N (z mod 256)) with Some b => b | None => x00 end.
Definition beqb (a b : byte) : bool := b2z a =? b2z b.
Fixpoint bytes_eqb (a b : bytes) : bool :=
  match a, b with
  | [], [] => true
  | x :: a', y :: b' => beqb x y && bytes_eqb a' b'
  | _, _ => false
  end.

(** big-endian value of a byte string: [v = (v << 8) + b] from the left *)
Definition be_val (l : bytes) : Z := fold_left (fun v b => Z.shiftl v 8 + b2z b) l 0.
(** little-endian value: [v += b << (8*i)] *)
Fixpoint le_val (l : bytes) : Z :=
  match l with [] => 0 | b :: l' => b2z b + Z.shiftl (le_val l') 8 end.
(** [[(num >> (8*s)) & 0xff for s in range(n)]] *)
Fixpoint le_bytes (n : nat) (v : Z) : bytes :=
  match n with
  | O => []
  | S n' => z2b (Z.land v 255) :: le_bytes n' (Z.shiftr v 8)
  end.
(** [[(num >> (8*s)) & 0xff for s in reversed(range(n))]] *)
Definition be_bytes (n : nat) (v : Z) : bytes := rev (le_bytes n v).

Definition zeros (n : nat) : bytes := repeat x00 n.

(** [align8 = lambda x: (x+7)//8*8]  (ofp4.py:7, nx.py:11) *)
Definition align8 (x : nat) : nat := ((x + 7) / 8 * 8)%nat.

(** ** struct *)
(** One item of a [struct] format: [FU n] big-endian unsigned of n bytes
    (B,H,I,Q under "!"), [FL n] little-endian unsigned (under "<"), [FS8] signed
    byte (b), [FX n] n pad bytes (x). *)
Inductive fitem := FU (n : nat) | FL (n : nat) | FS8 | FX (n : nat).
Notation sB := (FU 1). Notation sH := (FU 2). Notation sI := (FU 4). Notation sQ := (FU 8).
Notation lB := (FL 1). Notation lH := (FL 2). Notation lI := (FL 4).
Notation sx n := (FX n).

Definition fwidth (f : fitem) : nat :=
  match f with FU n => n | FL n => n | FS8 => 1 | FX n => n end%nat.
(** [struct.calcsize] *)
Definition calcsize (fs : list fitem) : nat := fold_right (fun f n => fwidth f + n)%nat 0%nat fs.

Definition in_range (n : nat) (v : Z) : bool := (0 <=? v) && (v <? 2 ^ (8 * Z.of_nat n)).

(** [struct.pack(fmt, *vs)]: out-of-range values and a wrong number of
    arguments raise struct.error *)
Fixpoint pack (fs : list fitem) (vs : list Z) : res bytes :=
  match fs, vs with
  | [], [] => Ok []
  | [], _ :: _ => Raise StructError
  | FX n :: fs', _ => b <- pack fs' vs ;; Ok (zeros n ++ b)
  | _ :: _, [] => Raise StructError
  | FU n :: fs', v :: vs' =>
      if in_range n v then b <- pack fs' vs' ;; Ok (be_bytes n v ++ b) else Raise StructError
  | FL n :: fs', v :: vs' =>
      if in_range n v then b <- pack fs' vs' ;; Ok (le_bytes n v ++ b) else Raise StructError
  | FS8 :: fs', v :: vs' =>
      if (-128 <=? v) && (v <? 128) then b <- pack fs' vs' ;; Ok (z2b v :: b) else Raise StructError
  end.

Fixpoint unpack_raw (fs : list fitem) (m : bytes) : list Z :=
  match fs with
  | [] => []
  | FX n :: fs' => unpack_raw fs' (skipn n m)
  | FU n :: fs' => be_val (firstn n m) :: unpack_raw fs' (skipn n m)
  | FL n :: fs' => le_val (firstn n m) :: unpack_raw fs' (skipn n m)
  | FS8 :: fs' =>
      (let v := be_val (firstn 1 m) in if v <? 128 then v else v - 256)
        :: unpack_raw fs' (skipn 1 m)
  end.
(** [struct.unpack_from(fmt, buf, off)] *)
Definition unpack_from (fs : list fitem) (m : bytes) (off : nat) : res (list Z) :=
  if (off + calcsize fs <=? length m)%nat then Ok (unpack_raw fs (skipn off m))
  else Raise StructError.
(** [struct.unpack(fmt, buf)]: the buffer must have exactly the right size *)
Definition unpack (fs : list fitem) (m : bytes) : res (list Z) :=
  if Nat.eqb (calcsize fs) (length m) then Ok (unpack_raw fs m) else Raise StructError.
