(** SpecRate: IEEE 754 binary64 rounding, written down as arithmetic on fractions, for the one
    field whose text is read through floating point (radiotap_rate). *)
From Verif Require Import Base.

(** numerator and denominator *)
Definition frac : Type := Z * Z.
Definition two_to (e : Z) : Z := 2 ^ Z.max e 0.
(** x / 2^e *)
Definition scaled (x : frac) (e : Z) : frac := (fst x * two_to (- e), snd x * two_to e).
(** the nearest integer, the even one of two *)
Definition half_even (x : frac) : Z :=
  let q := fst x / snd x in let r := fst x mod snd x in
  if 2 * r <? snd x then q else if 2 * r =? snd x then (if Z.even q then q else q + 1) else q + 1.
(** y is x rounded to 53 significant bits, fewer below 2^-1022; none above 2^1024 *)
Definition rounds (x y : frac) : Prop :=
  exists e, -1074 <= e /\ fst (scaled x e) < 2 ^ 53 * snd (scaled x e) /\ (e = -1074 \/ 2 ^ 52 * snd (scaled x e) <= fst (scaled x e)) /\
  half_even (scaled x e) * two_to e < 2 ^ 1024 * two_to (- e) /\ y = (half_even (scaled x e) * two_to e, two_to (- e)).
Definition fadd (x y : frac) : frac := (fst x * snd y + fst y * snd x, snd x * snd y).
Definition fmul (x y : frac) : frac := (fst x * fst y, snd x * snd y).
Definition fdiv (x y : frac) : frac := (fst x * snd y, snd x * fst y).
(** the number N.F (F of l digits) as it is computed: every operation rounds *)
Definition decimal (n f l : Z) (y : frac) : Prop :=
  exists c a b q, rounds (f, 1) a /\ rounds (10 ^ l, 1) b /\ rounds (n, 1) c /\ rounds (fdiv a b) q /\ rounds (fadd c q) y.
