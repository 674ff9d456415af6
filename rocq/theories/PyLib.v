(** PyLib: the standard-library calls /repo/ofpstr makes on strings and bytes:
    binascii.a2b_hex/b2a_hex/a2b_qp/b2a_qp (CPython 3) and
    socket.inet_aton/inet_ntoa/inet_pton/inet_ntop (CPython 3 on glibc).
    These are models of the runtime, not of /repo; they are part of the trusted
    base and were compared with the installed CPython on random inputs
    (DESIGN.md, "Trusted base"). *)
From Verif Require Import Base PyNum.

(** ** binascii hex *)
Definition is_ascii (c : Z) : bool := (0 <=? c) && (c <? 128).

Fixpoint a2b_hex (s : text) : res bytes :=
  match s with
  | [] => Ok []
  | [_] => Raise ValueError
  | a :: b :: s' =>
      if is_hex a && is_hex b then
        r <- a2b_hex s' ;; Ok (z2b (digit_val a * 16 + digit_val b) :: r)
      else Raise ValueError
  end.
Definition b2a_hex (l : bytes) : text := flat_map (fun b => fmt_02x (b2z b)) l.

(** ** binascii quoted-printable *)
(** body of a2b_qp on an ASCII string; [skipnl]: inside a soft line break that
    began with CR, looking for its LF *)
Fixpoint a2b_qp_go (skipnl : bool) (s : text) : bytes :=
  match s with
  | [] => []
  | c :: s' =>
      if skipnl then a2b_qp_go (negb (c =? 10)) s'
      else if c =? 61 then
        match s' with
        | [] => []
        | d :: s2 =>
            if d =? 10 then a2b_qp_go false s2
            else if d =? 13 then a2b_qp_go true s2
            else if d =? 61 then z2b 61 :: a2b_qp_go false s2
            else match s2 with
                 | e :: s3 =>
                     if is_hex d && is_hex e
                     then z2b (digit_val d * 16 + digit_val e) :: a2b_qp_go false s3
                     else z2b 61 :: a2b_qp_go false s'
                 | [] => z2b 61 :: a2b_qp_go false s'
                 end
        end
      else z2b c :: a2b_qp_go false s'
  end.
(** a str argument must be ASCII only *)
Definition a2b_qp (s : text) : res bytes :=
  if forallb is_ascii s then Ok (a2b_qp_go false s) else Raise ValueError.

(** upper-case hex digit of quoted-printable escapes *)
Definition hexu_char (d : Z) : Z := if d <? 10 then 48 + d else 55 + d.
Definition qp_esc (c : Z) : text := [61; hexu_char (c / 16); hexu_char (c mod 16)].

(** does the first LF follow a CR? *)
Fixpoint qp_crlf (prev : Z) (s : text) : bool :=
  match s with
  | [] => false
  | c :: s' => if c =? 10 then prev =? 13 else qp_crlf c s'
  end.

(** must [c], followed by [next] (None at the end), be escaped? *)
Definition qp_quote (linelen : nat) (c : Z) (next : option Z) : bool :=
  (126 <? c) || (c =? 61)
  || ((c =? 46) && Nat.eqb linelen 0
      && match next with None => true | Some n => (n =? 10) || (n =? 13) || (n =? 0) end)
  || (((c =? 9) || (c =? 32)) && match next with None => true | _ => false end)
  || ((c <? 33) && negb (c =? 13) && negb (c =? 10) && negb (c =? 9) && negb (c =? 32)).

(** [out]: output so far, last character first.  MAXLINESIZE = 76. *)
Fixpoint b2a_qp_go (crlf : bool) (linelen : nat) (out : text) (s : text) : text :=
  let nl := if crlf then [10; 13] else [10] in
  match s with
  | [] => rev out
  | c :: s' =>
      let next := match s' with [] => None | n :: _ => Some n end in
      if qp_quote linelen c next then
        if (76 <=? linelen + 3)%nat
        then b2a_qp_go crlf 3 (rev (qp_esc c) ++ nl ++ [61] ++ out) s'
        else b2a_qp_go crlf (linelen + 3) (rev (qp_esc c) ++ out) s'
      else if (c =? 10)
              || ((c =? 13) && match next with Some n => n =? 10 | None => false end) then
        let out := match out with
                   | w :: o => if (w =? 32) || (w =? 9) then rev (qp_esc w) ++ o else out
                   | [] => out
                   end in
        if c =? 13
        then match s' with
             | _ :: s2 => b2a_qp_go crlf 0 (nl ++ out) s2
             | [] => rev out        (* unreachable: next = LF *)
             end
        else b2a_qp_go crlf 0 (nl ++ out) s'
      else
        if match next with Some n => negb (n =? 10) | None => false end
           && (76 <=? linelen + 1)%nat
        then b2a_qp_go crlf 1 (c :: nl ++ [61] ++ out) s'
        else b2a_qp_go crlf (linelen + 1) (c :: out) s'
  end.
(** [binascii.b2a_qp(payload).decode("UTF-8")] (the result is always ASCII) *)
Definition b2a_qp (l : bytes) : text :=
  let s := map b2z l in b2a_qp_go (qp_crlf 0 s) 0 [] s.

(** ** socket, IPv4 *)
(** C strtoul(s, &end, 0) on a string that starts with a digit *)
Definition strtoul0 (s : text) : Z * text :=
  match s with
  | 48 :: x :: h :: _ =>
      if ((x =? 120) || (x =? 88)) && is_hex h
      then (digits_val 16 (take_while is_hex (skipn 2 s)), drop_while is_hex (skipn 2 s))
      else (digits_val 8 (take_while is_oct s), drop_while is_oct s)
  | 48 :: _ => (digits_val 8 (take_while is_oct s), drop_while is_oct s)
  | _ => (digits_val 10 (take_while is_dec s), drop_while is_dec s)
  end.

Definition c_isspace (c : Z) : bool := ((9 <=? c) && (c <=? 13)) || (c =? 32).

(** glibc inet_aton; [left] = how many more dots are allowed *)
Fixpoint aton_go (left : nat) (acc : bytes) (s : text) : option bytes :=
  match s with
  | [] => None
  | c :: _ =>
      if is_dec c then
        let '(v, rest) := strtoul0 s in
        if 0xffffffff <? v then None
        else
          let fin := if v <? 2 ^ (8 * Z.of_nat (S left))
                     then Some (acc ++ be_bytes (S left) v) else None in
          match rest with
          | [] => fin
          | d :: rest' =>
              if d =? 46 then
                match left with
                | O => None
                | S l' => if 255 <? v then None else aton_go l' (acc ++ [z2b v]) rest'
                end
              else if c_isspace d then fin else None
          end
      else None
  end.

(** characters CPython refuses to pass to C as a NUL-terminated UTF-8 string *)
Definition bad_cstr (s : text) : bool :=
  existsb (fun c => (c =? 0) || ((0xd800 <=? c) && (c <=? 0xdfff))) s.

(** [socket.inet_aton(s)] *)
Definition inet_aton (s : text) : res bytes :=
  if bad_cstr s then Raise ValueError
  else match aton_go 3 [] s with Some b => Ok b | None => Raise OSError end.

(** dotted quad of four bytes *)
Definition ntoa (l : bytes) : text := join [46] (map (fun b => fmt_d (b2z b)) l).
(** [socket.inet_ntoa(b)] *)
Definition inet_ntoa (l : bytes) : res text :=
  if Nat.eqb (length l) 4 then Ok (ntoa l) else Raise OSError.

(** ** socket, IPv6 *)
Fixpoint words (l : bytes) : list Z :=
  match l with
  | a :: b :: l' => (b2z a * 256 + b2z b) :: words l'
  | _ => []
  end.

(** longest run of zero words, first one on a tie: (base, len) *)
Definition best_upd (best cur : option (nat * nat)) : option (nat * nat) :=
  match cur, best with
  | None, _ => best
  | Some _, None => cur
  | Some (_, cl), Some (_, bl) => if (bl <? cl)%nat then cur else best
  end.
Fixpoint zero_runs (ws : list Z) (i : nat) (cur best : option (nat * nat)) : option (nat * nat) :=
  match ws with
  | [] => best_upd best cur
  | w :: ws' =>
      if w =? 0
      then zero_runs ws' (S i)
             (match cur with None => Some (i, 1%nat) | Some (b, l) => Some (b, S l) end) best
      else zero_runs ws' (S i) None (best_upd best cur)
  end.
Definition best_run (ws : list Z) : option (nat * nat) :=
  match zero_runs ws 0 None None with
  | Some (b, l) => if (l <? 2)%nat then None else Some (b, l)
  | None => None
  end.

(** the output loop of glibc inet_ntop6; [v4] = dotted quad of the last 4 bytes *)
Fixpoint ntop6_go (best : option (nat * nat)) (w5 : Z) (v4 : text) (i : nat) (ws : list Z) : text :=
  match ws with
  | [] => match best with
          | Some (b, l) => if Nat.eqb (b + l) 8 then [58] else []
          | None => []
          end
  | w :: ws' =>
      let skip := match best with
                  | Some (b, l) => (b <=? i)%nat && (i <? b + l)%nat
                  | None => false
                  end in
      if skip then
        (if match best with Some (b, _) => Nat.eqb i b | None => false end then [58] else [])
          ++ ntop6_go best w5 v4 (S i) ws'
      else
        (if Nat.eqb i 0 then [] else [58])
          ++ (if Nat.eqb i 6
                 && match best with
                    | Some (b, l) => Nat.eqb b 0 && (Nat.eqb l 6 || (Nat.eqb l 5 && (w5 =? 0xffff)))
                    | None => false
                    end
              then v4
              else digits 16 w ++ ntop6_go best w5 v4 (S i) ws')
  end.
Definition ntop6 (l : bytes) : text :=
  let ws := words l in
  ntop6_go (best_run ws) (nth 5 ws 0) (ntoa (skipn 12 l)) 0 ws.
(** [socket.inet_ntop(AF_INET6, b)] *)
Definition inet_ntop6 (l : bytes) : res text :=
  if Nat.eqb (length l) 16 then Ok (ntop6 l) else Raise ValueError.

(** glibc inet_pton4 on the rest of the string: octets read so far [acc], the
    current one [cur] (None = no digit yet) *)
Fixpoint pton4_go (acc : bytes) (cur : option Z) (s : text) : option bytes :=
  match s with
  | [] => match cur with
          | Some v => if Nat.eqb (length acc) 3 then Some (acc ++ [z2b v]) else None
          | None => None        (* fewer than four octets, or a trailing dot *)
          end
  | c :: s' =>
      if is_dec c then
        match cur with
        | Some v =>
            if v =? 0 then None
            else if 255 <? v * 10 + (c - 48) then None
            else pton4_go acc (Some (v * 10 + (c - 48))) s'
        | None => if (3 <? length acc)%nat then None else pton4_go acc (Some (c - 48)) s'
        end
      else if c =? 46 then
        match cur with
        | Some v => if Nat.eqb (length acc) 3 then None else pton4_go (acc ++ [z2b v]) None s'
        | None => None
        end
      else None
  end.

(** the main loop of glibc inet_pton6.  [tp]: bytes written so far; [colonp]:
    position of "::"; [xd], [val]: hex digits seen in the current group and its
    value; [curtok]: the text from the start of the current group. *)
Fixpoint pton6_go (curtok : text) (tp : bytes) (colonp : option nat) (xd : nat) (val : Z)
    (s : text) : option (bytes * option nat) :=
  match s with
  | [] =>
      if (0 <? xd)%nat then
        if (16 <? length tp + 2)%nat then None else Some (tp ++ be_bytes 2 val, colonp)
      else Some (tp, colonp)
  | c :: s' =>
      if is_hex c then
        if Nat.eqb xd 4 then None
        else pton6_go curtok tp colonp (S xd) (val * 16 + digit_val c) s'
      else if c =? 58 then
        if Nat.eqb xd 0 then
          match colonp with
          | Some _ => None
          | None => pton6_go s' tp (Some (length tp)) 0 val s'
          end
        else
          match s' with
          | [] => None
          | _ => if (16 <? length tp + 2)%nat then None
                 else pton6_go s' (tp ++ be_bytes 2 val) colonp 0 0 s'
          end
      else if (c =? 46) && (length tp + 4 <=? 16)%nat then
        match pton4_go [] None curtok with
        | Some b => Some (tp ++ b, colonp)
        | None => None
        end
      else None
  end.
Definition pton6 (s : text) : option bytes :=
  let start := match s with
               | [] => None
               | 58 :: r => match r with 58 :: _ => Some r | _ => None end
               | _ => Some s
               end in
  match start with
  | None => None
  | Some s1 =>
      match pton6_go s1 [] None 0 0 s1 with
      | None => None
      | Some (tp, colonp) =>
          let full :=
            match colonp with
            | Some k => if Nat.eqb (length tp) 16 then None
                        else Some (firstn k tp ++ zeros (16 - length tp) ++ skipn k tp)
            | None => Some tp
            end in
          match full with
          | Some b => if Nat.eqb (length b) 16 then Some b else None
          | None => None
          end
      end
  end.
(** [socket.inet_pton(AF_INET6, s)] *)
Definition inet_pton6 (s : text) : res bytes :=
  if bad_cstr s then Raise ValueError
  else match pton6 s with Some b => Ok b | None => Raise OSError end.
