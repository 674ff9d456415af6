(** Model of /repo/ofpstr/cli.py: message framing on the control connection and the
    commands of ofctl.

    Not modelled: argparse (lines 30-34).  cli.py is Python 2 only (print statements, lines 56 and 69); the calls
    into ofp4 are taken from the same model as everywhere else.  socket.send is taken to
    send everything. *)
From Verif Require Import Base PyNum Util PyLib OxmCodec OxmTables Oxm Nx Ofp4.

(** how ofctl ends: it returns, raises a Python exception, raises Result("failed"), raises
    Eparam, waits for ever in recv, or loops for ever *)
Inductive ending := Returned | Raised (e : exn) | Failed | BadParam | Blocked | Loops.

(** The receiving side of a stream socket: what successive recv calls find.  A recv(n)
    returns at least one byte and at most [n], all from the first chunk; any sequence of
    results a kernel can produce comes from some list of chunks.  After the last chunk the
    peer has closed the connection (recv returns b"") or stays silent (recv waits). *)
Record sock := Sock { s_chunks : list bytes; s_open : bool }.
Fixpoint recv_go (n : nat) (cs : list bytes) : option (bytes * list bytes) :=
  match cs with
  | [] => None
  | [] :: cs' => recv_go n cs'
  | c :: cs' => Some (firstn n c, skipn n c :: cs')
  end.
(** [None] = waits for ever *)
Definition recv (n : nat) (s : sock) : option (bytes * sock) :=
  match recv_go n (s_chunks s) with
  | Some (r, cs) => Some (r, Sock cs (s_open s))
  | None => if s_open s then None else Some ([], Sock [] false)
  end.

Inductive got := Got (m : bytes) (s : sock) | Stuck (e : ending).
(** one step of the generator msgs, cli.py:16-23 *)
Definition next_msg (s : sock) : got :=
  match recv 8 s with
  | None => Stuck Blocked
  | Some (h, s) =>
      match unpack [sB; sB; sH; sI] h with
      | Ok hi =>
          let len := nth 2 hi 0 in
          if 8 <? len then
            match recv (Z.to_nat (len - 8)) s with
            | None => Stuck Blocked
            | Some (r, s) => Got (h ++ r) s
            end
          else Got h s
      | Raise e => Stuck (Raised e)
      | Diverge => Stuck Loops
      end
  end.

(** [for msg in msgs(s): body]: [body] changes the state [a] and goes on (None) or leaves
    the loop.  Every message takes 8 bytes of the stream at least. *)
Fixpoint for_msgs {A} (fuel : nat) (body : A -> bytes -> A * option ending) (a : A) (s : sock) : A * ending * sock :=
  match fuel with
  | O => (a, Loops, s)
  | S f =>
      match next_msg s with
      | Stuck e => (a, e, s)
      | Got m s => match body a m with
                   | (a, None) => for_msgs f body a s
                   | (a, Some e) => (a, e, s)
                   end
      end
  end.
Definition run_msgs {A} (body : A -> bytes -> A * option ending) (a : A) (s : sock) : A * ending * sock :=
  for_msgs (S (length (concat (s_chunks s)))) body a s.

Definition ofpfc : list text :=
  [$"add-flow"; $"mod-flow"; $"mod-flow-strict"; $"del-flow"; $"del-flow-strict"].   (* cli.py:25 *)
Definition ofpgc : list text := [$"add-group"; $"mod-group"; $"del-group"].            (* cli.py:26 *)

(** cli.py:49-59 and 62-72: print the replies of multipart type [mp], until one whose
    flags are 0; the state is what has been printed *)
Definition dump_body (mp : Z) (show : bytes -> res text) (printed : list text) (m : bytes) : list text * option ending :=
  if (length m <? 16)%nat then (printed, None)
  else
    match unpack_from mp_fmt m 0 with
    | Ok [_; ht; _; _; mt; flags] =>
        if negb (ht =? 19) || negb (mt =? mp) then (printed, None)
        else match show m with
             | Ok t => (printed ++ [t], if flags =? 0 then Some Returned else None)
             | Raise e => (printed, Some (Raised e))
             | Diverge => (printed, Some Loops)
             end
    | _ => (printed, Some (Raised StructError))
    end.
(** cli.py:79-84 and 91-96: an error message (type 1) counts as failure when the
    *length* field of its header is 2 (the code tests hdr[2], not the xid) *)
Definition barrier_body (u : unit) (m : bytes) : unit * option ending :=
  match unpack_from [sB; sB; sH; sI] m 0 with
  | Ok [_; ht; hl; xid] =>
      if (ht =? 1) && (hl =? 2) then (u, Some Failed)
      else if (ht =? 21) && (xid =? 3) then (u, Some Returned)
      else (u, None)
  | _ => (u, Some (Raised StructError))
  end.

Definition of_hdr (t xid : Z) : res bytes := pack [sB; sB; sH; sI] [4; t; 8; xid].     (* cli.py:46, 78, 90 *)

(** what a run does: the messages sent, the lines printed, how it ends, what is left unread *)
Record run := Run { r_sent : list bytes; r_printed : list text; r_end : ending; r_left : sock }.
(** after an exception *)
Definition died {A} (sent : list bytes) (r : res A) (s : sock) : run :=
  Run sent [] (match r with Ok _ => Returned | Raise e => Raised e | Diverge => Loops end) s.
(** a dump command: send the request, then the loop *)
Definition do_dump (sent : list bytes) (x : res bytes) (mp : Z) (show : bytes -> res text) (s : sock) : run :=
  match x with
  | Ok x => let '(printed, e, s) := run_msgs (dump_body mp show) [] s in Run (sent ++ [x]) printed e s
  | r => died sent r s
  end.
(** a modifying command: send the message and a barrier, then the loop *)
Definition do_mod (sent : list bytes) (x : res bytes) (s : sock) : run :=
  match x with
  | Ok x =>
      match of_hdr 20 3 with
      | Ok b => let '(_, e, s) := run_msgs barrier_body tt s in Run (sent ++ [x; b]) [] e s
      | r => died (sent ++ [x]) r s
      end
  | r => died sent r s
  end.
(** ofctl from the connected socket on, cli.py:46-98 *)
Definition ofctl (command : text) (args : list text) (s : sock) : run :=
  match of_hdr 0 1 with
  | Ok h =>
      if text_eqb command $"dump-flows" then do_dump [h] (text2mpflow [] 18 2) 1 mpflow2text s
      else if text_eqb command $"dump-groups" then do_dump [h] (text2mpgroupdesc [] 18 2) 7 mpgroupdesc2text s
      else match index_of command ofpfc with
      | Ok c => do_mod [h] (str2mod (join $" " args) c 2) s
      | _ =>
          match index_of command ofpgc with
          | Ok c => do_mod [h] (str2group (join $" " args) c 2) s
          | _ => Run [h] [] BadParam s
          end
      end
  | r => died [] r s
  end.

(** ** The address of the switch, cli.py:35-44 *)
(** the regular expression (tcp:(\d+.\d+.\d+.\d+):(\d+)|unix:( .* )).  One item of a
    sequence is \d+ (ASCII digits: the tool is Python 2), "." (anything but a newline) or a
    character; \d+ takes as many digits as it can and gives them back one by one when
    the rest does not match. *)
Inductive rx_item := RDigits | RAny | RChr (c : Z).
Fixpoint first_some {A} (k : nat) (f : nat -> option A) : option A :=
  match k with
  | O => None
  | S k' => match f k with Some x => Some x | None => first_some k' f end
  end.
(** what each item matches; the rest of the text is not looked at (re.match) *)
Fixpoint rx_seq (r : list rx_item) (s : text) : option (list text) :=
  match r with
  | [] => Some []
  | RDigits :: r' => first_some (longest s is_dec) (fun k => option_map (cons (firstn k s)) (rx_seq r' (skipn k s)))
  | RAny :: r' => match s with
                  | c :: s' => if c =? 10 then None else option_map (cons [c]) (rx_seq r' s')
                  | [] => None
                  end
  | RChr k :: r' => match s with
                    | c :: s' => if c =? k then option_map (cons [c]) (rx_seq r' s') else None
                    | [] => None
                    end
  end.
Definition tcp_rx : list rx_item :=
  map RChr $"tcp:" ++ [RDigits; RAny; RDigits; RAny; RDigits; RAny; RDigits; RChr 58; RDigits].
Inductive address := Tcp (host : text) (port : Z) | Unix (path : text).
(** group 2 is items 4 to 10, group 3 is item 12, group 4 is what follows "unix:" *)
Definition switch_addr (s : text) : option address :=
  match rx_seq tcp_rx s with
  | Some m => Some (Tcp (concat (firstn 7 (skipn 4 m))) (digits_val 10 (nth 12 m [])))
  | None => if startswith $"unix:" s then Some (Unix (take_while (fun c => negb (c =? 10)) (skipn 5 s))) else None
  end.

(** ofctl from the command line arguments on, cli.py:35-98.  [net] is the network: what
    connecting to an address gives, a socket or an exception. *)
Definition ofctl_main (switch command : text) (args : list text) (net : address -> res sock) : run :=
  match switch_addr switch with
  | None => Run [] [] BadParam (Sock [] false)
  | Some a =>
      match net a with
      | Ok s => ofctl command args s
      | r => died [] r (Sock [] false)
      end
  end.
