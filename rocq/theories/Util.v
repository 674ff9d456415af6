(** Model of /repo/ofpstr/util.py *)
From Verif Require Import Base PyNum.
From Coq Require Import Floats.SpecFloat.

(** ofpp, util.py:10-20 (dict insertion order) *)
Definition ofpp : list (Z * text) :=
  [ (0xffffff00, $"max"); (0xfffffff8, $"in_port"); (0xfffffff9, $"table");
    (0xfffffffa, $"normal"); (0xfffffffb, $"flood"); (0xfffffffc, $"all");
    (0xfffffffd, $"controller"); (0xfffffffe, $"local"); (0xffffffff, $"any") ].

(** is_delimiter, util.py:22-23: "," or string.whitespace (" \t\n\r\x0b\x0c") *)
Definition is_delimiter (c : Z) : bool :=
  (c =? 44) || (c =? 32) || ((9 <=? c) && (c <=? 13)).

(** pars, util.py:25 *)
Definition pars (c : Z) : option Z :=
  if c =? 40 then Some 41            (* ( ) *)
  else if c =? 123 then Some 125     (* { } *)
  else if c =? 91 then Some 93       (* [ ] *)
  else if c =? 60 then Some 62       (* < > *)
  else None.

(** scan_paren(end)(reader), util.py:26-44.  Returns (payload, right paren, what
    the reader still holds).  Python's call stack of nested [scan] frames is the
    explicit list [stk] of the closers of the enclosing frames, so that the
    recursion is structural; [scan_unfold] in UtilFacts.v proves the nested-call
    equation the source is written with.  Python's recursion limit is not modelled. *)
Fixpoint scan_stk (e : Z) (stk : list Z) (s : text) : text * text * text :=
  match s with
  | [] => ([], [], [])
  | c :: s' =>
      if c =? e then
        match stk with
        | [] => ([], [c], s')
        | e' :: stk' => let '(p, r, rest) := scan_stk e' stk' s' in (c :: p, r, rest)
        end
      else
        match pars c with
        | Some e2 => let '(p, r, rest) := scan_stk e2 (e :: stk) s' in (c :: p, r, rest)
        | None => let '(p, r, rest) := scan_stk e stk s' in (c :: p, r, rest)
        end
  end.
Definition scan_paren (e : Z) (s : text) : text * text * text := scan_stk e [] s.

(** The regular expression of get_token, util.py:48: ^(\s*=\s*|[\s,]+) *)
Definition token_head (u : text) : text :=
  let ws := take_while is_space u in
  match drop_while is_space u with
  | 61 :: r => ws ++ [61] ++ take_while is_space r
  | _ => take_while (fun c => is_space c || (c =? 44)) u
  end.

(** the loop of get_token, util.py:52-60; [stk] = closers of the brackets that
    are open (the frames of scan_paren), [] = the loop itself *)
Fixpoint token_body (stk : list Z) (s : text) : text :=
  match s with
  | [] => []
  | c :: s' =>
      match stk with
      | [] => if is_delimiter c || (c =? 61) then []
              else match pars c with
                   | Some e => c :: token_body [e] s'
                   | None => c :: token_body [] s'
                   end
      | e :: stk' =>
          if c =? e then c :: token_body stk' s'
          else match pars c with
               | Some e2 => c :: token_body (e2 :: stk) s'
               | None => c :: token_body stk s'
               end
      end
  end.

(** get_token, util.py:46-62 *)
Definition get_token (u : text) : text * text * text :=
  let head := token_head u in
  let body := token_body [] (skipn (length head) u) in
  (head, body, skipn (length head + length body) u).

(** split, util.py:64-81.  [stk]: open brackets as in [token_body].  Note that
    the opening bracket of an outermost group is not appended (util.py:73-75). *)
Fixpoint split_go (stk : list Z) (tok : text) (s : text) : list text :=
  match s with
  | [] => match tok with [] => [] | _ => [tok] end
  | c :: s' =>
      match stk with
      | [] => if is_delimiter c then
                match tok with [] => split_go [] [] s' | _ => tok :: split_go [] [] s' end
              else match pars c with
                   | Some e => split_go [e] tok s'
                   | None => split_go [] (tok ++ [c]) s'
                   end
      | e :: stk' =>
          if c =? e then split_go stk' (tok ++ [c]) s'
          else match pars c with
               | Some e2 => split_go (e2 :: stk) (tok ++ [c]) s'
               | None => split_go stk (tok ++ [c]) s'
               end
      end
  end.
Definition split (s : text) : list text := split_go [] [] s.

(** parse_func, util.py:83-99: (name, None) without brackets, else (name, args) *)
Fixpoint parse_func_go (total : nat) (name : text) (s : text) : res (text * option text) :=
  match s with
  | [] => Ok (name, None)
  | c :: s' =>
      match pars c with
      | Some e =>
          let '(p, r, _) := scan_paren e s' in
          assert! (Nat.eqb total (length name + 1 + length p + length r)) ;;
          Ok (name, Some p)
      | None => parse_func_go total (name ++ [c]) s'
      end
  end.
Definition parse_func (nojunk : text) : res (text * option text) :=
  parse_func_go (length nojunk) [] nojunk.

(** longest, util.py:101-109 *)
Definition longest (s : text) (f : Z -> bool) : nat := length (take_while f s).

(** parseInt, util.py:111-124 *)
Definition parseInt (u : text) : res (Z * nat) :=
  if startswith $"-" u then
    let l := (1 + longest (skipn 1 u) is_dec)%nat in
    n <- int_digits 10 (slice 1 l u) ;; Ok (- n, l)
  else if startswith $"0x" u || startswith $"0X" u then
    let l := (2 + longest (skipn 2 u) is_hex)%nat in
    n <- int_digits 16 (slice 2 l u) ;; Ok (n, l)
  else if startswith $"0" u && (2 <? length u)%nat
          && match nth_error u 1 with Some c => is_oct c | None => false end then
    let l := (1 + longest (skipn 1 u) is_oct)%nat in
    n <- int_digits 8 (slice 1 l u) ;; Ok (n, l)
  else
    let l := longest u is_dec in
    n <- int_digits 10 (firstn l u) ;; Ok (n, l).

(** ** Floating point, only for radiotap_rate: IEEE binary64 as in Coq's
    [SpecFloat] (executable, no axiom). *)
Definition flt := spec_float.
Definition f_add : flt -> flt -> flt := SFadd 53 1024.
Definition f_mul : flt -> flt -> flt := SFmul 53 1024.
Definition f_div : flt -> flt -> flt := SFdiv 53 1024.
(** [float(int)]: correctly rounded; too large raises OverflowError *)
Definition f_of_Z (z : Z) : res flt :=
  let f := binary_normalize 53 1024 z 0 false in
  match f with
  | S754_infinity _ | S754_nan => Raise OverflowError
  | _ => Ok f
  end.
(** [int(float)]: truncation; inf and nan raise *)
Definition f_trunc (f : flt) : res Z :=
  match f with
  | S754_zero _ => Ok 0
  | S754_infinity _ => Raise OverflowError
  | S754_nan => Raise ValueError
  | S754_finite s m e =>
      let a := if 0 <=? e then Zpos m * 2 ^ e else Zpos m / 2 ^ (- e) in
      Ok (if s then - a else a)
  end.

Inductive pynum := PInt (z : Z) | PFlt (f : flt).

(** parseFloat, util.py:126-139 ([neg] is computed there and never used; the
    returned length does not count the "-") *)
Definition parseFloat (u : text) : res (pynum * nat) :=
  let u := if startswith $"-" u then skipn 1 u else u in
  let l := longest u is_dec in
  n <- int_digits 10 (firstn l u) ;;
  if startswith $"." (skipn l u) then
    let l2 := longest (skipn (l + 1) u) is_dec in
    fr <- int_digits 10 (slice (l + 1) (l + l2 + 1) u) ;;
    a <- f_of_Z fr ;;
    b <- f_of_Z (10 ^ Z.of_nat l2) ;;
    c <- f_of_Z n ;;
    Ok (PFlt (f_add c (f_div a b)), (l + l2 + 1)%nat)
  else Ok (PInt n, l).
