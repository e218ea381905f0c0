(** Model of the socket peers, /repo/includes/eeros/sockets/SocketServer.hpp and SocketClient.hpp (the loops of the two
    are the same), and of the block /repo/includes/eeros/control/SocketData.hpp.
    Frames are lists of bytes. The environment decides, for each call of read, whether the time is up before the call and
    how many bytes are delivered at most, that the peer closed the connection (0 bytes), or that it fails (-1). *)
From Verif Require Import Prelude.

Definition byte := Z.
Inductive answer := Got (size : nat) | Closed | Failed.
(** One pass of the loop SocketServer.hpp 116-129: is it later than endTime, and what does read deliver. *)
Record event := { ev_late : bool; ev_answer : answer }.

(** Cells of the local buffer b_read; None: not written since the connection was made (the array is not initialised). *)
Definition cells := list (option byte).
(** Write [bs] from offset [i] on. *)
Fixpoint put (buf : cells) (i : nat) (bs : list byte) : cells :=
  match buf, i, bs with
  | [], _, _ => []
  | c :: buf, S i, _ => c :: put buf i bs
  | c :: buf, 0, [] => c :: buf
  | c :: buf, 0, b :: bs => Some b :: put buf 0 bs
  end.

Inductive waiting (A : Type) := Done (a : A) | Blocked. (* Blocked: the call of read never returned *)
Arguments Done {A} _. Arguments Blocked {A}.

(** SocketServer.hpp 113-129 / SocketClient.hpp 101-116. [pos] is ptr - b_read, [count] the bytes missing, [stream] the
    bytes sent by the peer and not read yet. read delivers at most [count] bytes. With n = -1 the code also moves ptr back by one
    and increments count; both are not used any more since the loop is left.
    Result: buffer, remaining stream, remaining events, connected. *)
Fixpoint read_loop (evs : list event) (stream : list byte) (buf : cells) (pos count : nat) (connected : bool)
  : waiting (cells * list byte * list event * bool) :=
  if connected && negb (count =? 0) then
    match evs with
    | [] => Blocked
    | e :: evs =>
        let connected := negb (ev_late e) in                              (* 117-120 *)
        match ev_answer e with                                            (* 122 *)
        | Got size =>
            let n := min size count in
            let bs := firstn n stream in
            read_loop evs (skipn n stream) (put buf pos bs) (pos + length bs) (count - length bs) connected   (* 127-128 *)
        | Closed => read_loop evs stream buf pos count connected
        | Failed => Done (buf, stream, evs, false)                        (* 123-126 *)
        end
    end
  else Done (buf, stream, evs, connected).

(** One pass of 98-135: [w] is the result of write being negative or not. The receive buffer is overwritten in any case (130-133).
    Result: buffer (which is the new content of rxBuf), remaining stream and events, connected. *)
Definition cycle (n : nat) (w_ok : bool) (evs : list event) (stream : list byte) (buf : cells) : waiting (cells * list byte * list event * bool) :=
  read_loop evs stream buf 0 n w_ok.
(** 98-139: the receive buffers published during a connection, in order; the last one is set to zero (138). *)
Fixpoint connection (n : nat) (ws : list bool) (evs : list event) (stream : list byte) (buf : cells) : waiting (list cells * list byte) :=
  match ws with
  | [] => Blocked    (* the environment decided about no further write *)
  | w :: ws => match cycle n w evs stream buf with
               | Blocked => Blocked
               | Done (buf, stream, evs, true) => match connection n ws evs stream buf with Done (pubs, s) => Done (buf :: pubs, s) | Blocked => Blocked end
               | Done (buf, stream, _, false) => Done ([buf; repeat (Some 0%Z) n], stream)
               end
  end.
(** 94: b_read of a new connection *)
Definition fresh (n : nat) : cells := repeat None n.

(** The first [k] cycles of a connection that stays up. *)
Fixpoint cycles (k n : nat) (evs : list event) (stream : list byte) (buf : cells) : waiting (list cells * list byte * list event) :=
  match k with
  | 0 => Done ([], stream, evs)
  | S k => match cycle n true evs stream buf with
           | Done (buf, stream, evs, true) => match cycles k n evs stream buf with Done (pubs, s, e) => Done (buf :: pubs, s, e) | Blocked => Blocked end
           | _ => Blocked
           end
  end.

(** ** Sending, 101-110: the bytes put on the stream; write may accept fewer bytes than requested, the rest is not sent. *)
Definition send_frame (accepted : nat) (frame : list byte) : list byte := firstn accepted frame.
Fixpoint send_frames (l : list (nat * list byte)) : list byte := match l with [] => [] | (a, f) :: l => send_frame a f ++ send_frames l end.

(** ** SocketData.hpp 71-90: the block copies the receive buffer element by element through a reference obtained
    under the lock but used without it; the thread of the socket writes the elements of the next frame meanwhile.
    [true]: the block copies its next element; [false]: the socket thread copies its next element. *)
Fixpoint copy_race (sched : list bool) (rx new out : list byte) (i j : nat) : list byte :=
  match sched with
  | [] => out
  | true :: sched => copy_race sched rx new (out ++ [nth i rx 0%Z]) (S i) j
  | false :: sched => copy_race sched (firstn j rx ++ [nth j new 0%Z] ++ skipn (S j) rx) new out i (S j)
  end.
