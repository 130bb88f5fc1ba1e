(** Model of rsomeip/src/socket/udp.rs (line numbers are of that file) as a state machine.
    Definitions only.

    One step is one action that is atomic in the program: a critical section of a mutex, one
    operation on a channel, or one call of the API.  Any step may follow any other, so a list of
    events is a schedule.

    Addresses are numbers.  Not modelled: [UdpSocket::bind] itself (105-130), the cancellation
    token (it is never cancelled: no code calls [cancel], and dropping the token does not), and the
    operating system's socket, whose datagrams are the events [EPacket]. *)
From Coq Require Import List NArith Bool PeanoNat.
From Verif Require Import MapModel.
Import ListNotations.

(** A datagram.  [p_no] is not in the program: it numbers the arrivals, so that two datagrams
    with the same contents can be told apart. *)
Record packet := mkP { p_no : nat; p_data : list N }.

(** A [tokio::sync::broadcast] channel with its only receiver.  Values are kept in a ring of
    [c_cap] slots; here [c_sent] is everything ever put in, [c_next] the position the receiver
    reads next, and the slots hold the last [c_cap] values.  [c_rx]: the receiver exists.
    [c_addr] is the [peer_address] of the [UdpSender] created together with it (142-149, 287-293). *)
Record chan := mkC { c_addr : N; c_cap : nat; c_sent : list packet; c_next : nat; c_rx : bool }.

(** What the API returns. *)
Inductive obs :=
| OUnit
| OConnected (c : nat)
| OListening (l : nat)
| OAccepted (c : nat) (a : N)
| OAcceptEnd
| OData (p : packet)
| OLagged (n : nat)
| OClosed
| OPending
| OPanic.

(** [broadcast::Sender::send]: fails if there is no receiver. *)
Definition chan_send (c : chan) (p : packet) : option chan :=
  if c_rx c then Some (mkC (c_addr c) (c_cap c) (c_sent c ++ [p]) (c_next c) (c_rx c)) else None.

(** [broadcast::Receiver::recv], [closed] being whether no sender is left; 197-204 renames the
    errors.  A receiver that has been overtaken jumps to the oldest value still in the ring. *)
Definition chan_recv (closed : bool) (c : chan) : chan * obs :=
  let tail := length (c_sent c) in
  if c_next c + c_cap c <? tail then
    (mkC (c_addr c) (c_cap c) (c_sent c) (tail - c_cap c) (c_rx c), OLagged (tail - c_cap c - c_next c))
  else match nth_error (c_sent c) (c_next c) with
       | Some p => (mkC (c_addr c) (c_cap c) (c_sent c) (S (c_next c)) (c_rx c), OData p)
       | None => (c, if closed then OClosed else OPending)
       end.

(** A [tokio::sync::mpsc] channel of new connections: its capacity, the queue, and whether the
    [UdpListener] that reads it exists (312-314). *)
Record lst := mkL { l_cap : nat; l_queue : list (nat * N); l_rx : bool }.

(** Where the receiver task is (257-305). *)
Inductive task :=
| Idle                                    (* 258: waiting for a datagram *)
| Arrived (p : packet) (a : N)            (* 260-268: before [receivers.get] *)
| Got (p : packet) (a : N) (c : nat)      (* 269: holds a clone of the sender, before [send] *)
| Failed (p : packet) (a : N)             (* 271-272: before [receivers.remove] *)
| NewConn (p : packet) (a : N)            (* 283-285: before [listener.lock] *)
| Queued (p : packet) (a : N) (c : nat)   (* 295-296: lock held, before [sender.send] *)
| Sent (a : N) (c : nat)                  (* 297: lock held, before [receivers.insert] *)
| Stopped.                                (* 258: [recv_from] failed, the task has ended *)

(** 85-94: the socket, together with its task and every channel made so far.  [u_open]: the
    [UdpSocket] exists.  [u_count] numbers the arrivals. *)
Record udp := mkU {
  u_open : bool;
  u_receivers : list (N * nat);
  u_listener : option nat;
  u_task : task;
  u_chans : list chan;
  u_lsts : list lst;
  u_count : nat
}.

(** 105-130: what [bind] returns when it succeeds. *)
Definition udp_init : udp := mkU true [] None Idle [] [] 0.

Definition set_nth {A} (n : nat) (x : A) (l : list A) : list A :=
  firstn n l ++ match skipn n l with [] => [] | _ :: r => x :: r end.
Definition set_chan (s : udp) c ch : udp :=
  mkU (u_open s) (u_receivers s) (u_listener s) (u_task s) (set_nth c ch (u_chans s)) (u_lsts s) (u_count s).
Definition set_lst (s : udp) l x : udp :=
  mkU (u_open s) (u_receivers s) (u_listener s) (u_task s) (u_chans s) (set_nth l x (u_lsts s)) (u_count s).
Definition set_task (s : udp) t : udp :=
  mkU (u_open s) (u_receivers s) (u_listener s) t (u_chans s) (u_lsts s) (u_count s).
Definition set_receivers (s : udp) r : udp :=
  mkU (u_open s) r (u_listener s) (u_task s) (u_chans s) (u_lsts s) (u_count s).
Definition set_listener (s : udp) l : udp :=
  mkU (u_open s) (u_receivers s) l (u_task s) (u_chans s) (u_lsts s) (u_count s).
Definition add_chan (s : udp) ch : udp :=
  mkU (u_open s) (u_receivers s) (u_listener s) (u_task s) (u_chans s ++ [ch]) (u_lsts s) (u_count s).
Definition add_lst (s : udp) x : udp :=
  mkU (u_open s) (u_receivers s) (u_listener s) (u_task s) (u_chans s) (u_lsts s ++ [x]) (u_count s).

(** The map and the listener slot are shared by the socket and its task; they are dropped, with
    every sender in them, when both are gone. *)
Definition shared (s : udp) : bool :=
  u_open s || match u_task s with Stopped => false | _ => true end.
(** Whether a sender of channel [c] is left: in the map, or in the hands of the task. *)
Definition has_sender (s : udp) (c : nat) : bool :=
  (shared s && existsb (fun e => snd e =? c) (u_receivers s)) ||
  match u_task s with Got _ _ c' | Queued _ _ c' | Sent _ c' => c' =? c | _ => false end.
Definition has_listener (s : udp) (l : nat) : bool :=
  shared s && match u_listener s with Some l' => l' =? l | None => false end.
(** 156-158, 285: the listener's mutex is held across 286-304. *)
Definition listener_locked (s : udp) : bool :=
  match u_task s with Queued _ _ _ | Sent _ _ => true | _ => false end.

Inductive event :=
| EPacket (a : N) (data : list N)   (* a datagram arrives *)
| EError                            (* [recv_from] fails *)
| ETask                             (* the task takes its next step *)
| EConnect (a : N)
| EListen (backlog : nat)
| EAccept (l : nat)
| ERecv (c : nat)
| EDropReceiver (c : nat)
| EDropListener (l : nat)
| EDropSocket.

(** 267-305: the next step of the task.  [None]: it has nothing to do. *)
Definition task_step (s : udp) : option udp :=
  match u_task s with
  | Idle | Stopped => None
  | Arrived p a =>
      Some (set_task s (match map_get N.eqb a (u_receivers s) with
                        | Some c => Got p a c
                        | None => NewConn p a
                        end))
  | Got p a c =>
      match nth_error (u_chans s) c with
      | None => None
      | Some ch =>
          Some (match chan_send ch p with
                | Some ch' => set_task (set_chan s c ch') Idle
                | None => set_task s (Failed p a)
                end)
      end
  | Failed p a => Some (set_task (set_receivers s (map_remove N.eqb a (u_receivers s))) (NewConn p a))
  | NewConn p a =>
      match u_listener s with
      | None => Some (set_task s Idle)
      | Some l =>
          match nth_error (u_lsts s) l with
          | None => None
          | Some x =>
              if l_rx x then
                if length (l_queue x) <? l_cap x then
                  let c := length (u_chans s) in
                  Some (set_task (add_chan (set_lst s l (mkL (l_cap x) (l_queue x ++ [(c, a)]) true))
                                           (mkC a 32 [] 0 true)) (Queued p a c))
                else Some (set_task s Idle)
              else Some (set_task (set_listener s None) Idle)
          end
      end
  | Queued p a c =>
      match nth_error (u_chans s) c with
      | None => None
      | Some ch =>
          Some (set_task (match chan_send ch p with Some ch' => set_chan s c ch' | None => s end) (Sent a c))
      end
  | Sent a c => Some (set_task (set_receivers s (map_insert N.eqb a c (u_receivers s))) Idle)
  end.

(** Drops the receivers of the queued connections [q]. *)
Definition drop_rx (ch : chan) : chan := mkC (c_addr ch) (c_cap ch) (c_sent ch) (c_next ch) false.
Fixpoint drop_all (q : list (nat * N)) (s : udp) : udp :=
  match q with
  | [] => s
  | (c, _) :: q' =>
      drop_all q' (match nth_error (u_chans s) c with Some ch => set_chan s c (drop_rx ch) | None => s end)
  end.

(** The receivers the user holds: not dropped, and not waiting in a queue. *)
Definition waiting (s : udp) (c : nat) : bool :=
  existsb (fun x => existsb (fun e => fst e =? c) (l_queue x)) (u_lsts s).

(** The next state and what the caller gets.  [None]: the event cannot happen now (a handle that
    does not exist, a lock that is held, a task that is elsewhere). *)
Definition step (s : udp) (e : event) : option (udp * obs) :=
  match e with
  | EPacket a data =>
      (* 257-260; datagrams are cut to the buffer of 1400 bytes (234) *)
      match u_task s with
      | Idle => Some (mkU (u_open s) (u_receivers s) (u_listener s) (Arrived (mkP (u_count s) (firstn 1400 data)) a)
                          (u_chans s) (u_lsts s) (S (u_count s)), OUnit)
      | _ => None
      end
  | EError => match u_task s with Idle => Some (set_task s Stopped, OUnit) | _ => None end
  | ETask => option_map (fun s' => (s', OUnit)) (task_step s)
  | EConnect a =>
      (* 140-151 *)
      if u_open s then
        let c := length (u_chans s) in
        Some (set_receivers (add_chan s (mkC a 8 [] 0 true)) (map_insert N.eqb a c (u_receivers s)), OConnected c)
      else None
  | EListen n =>
      (* 153-161; [mpsc::channel(0)] panics *)
      if u_open s then
        match n with
        | O => Some (s, OPanic)
        | S _ => if listener_locked s then None
                 else let l := length (u_lsts s) in
                      Some (set_listener (add_lst s (mkL n [] true)) (Some l), OListening l)
        end
      else None
  | EAccept l =>
      (* 320-322 *)
      match nth_error (u_lsts s) l with
      | Some x =>
          if l_rx x then
            match l_queue x with
            | (c, a) :: q => Some (set_lst s l (mkL (l_cap x) q true), OAccepted c a)
            | [] => Some (s, if has_listener s l then OPending else OAcceptEnd)
            end
          else None
      | None => None
      end
  | ERecv c =>
      (* 198-203 *)
      match nth_error (u_chans s) c with
      | Some ch =>
          if c_rx ch && negb (waiting s c) then
            let (ch', o) := chan_recv (negb (has_sender s c)) ch in Some (set_chan s c ch', o)
          else None
      | None => None
      end
  | EDropReceiver c =>
      match nth_error (u_chans s) c with
      | Some ch => if c_rx ch && negb (waiting s c) then Some (set_chan s c (drop_rx ch), OUnit) else None
      | None => None
      end
  | EDropListener l =>
      (* the queue goes with it, and the connections in the queue with that *)
      match nth_error (u_lsts s) l with
      | Some x => if l_rx x then Some (drop_all (l_queue x) (set_lst s l (mkL (l_cap x) [] false)), OUnit) else None
      | None => None
      end
  | EDropSocket =>
      if u_open s then
        Some (mkU false (u_receivers s) (u_listener s) (u_task s) (u_chans s) (u_lsts s) (u_count s), OUnit)
      else None
  end.

(** Everything that has happened to a socket since it was bound, oldest first. *)
Inductive history : list (event * obs) -> udp -> Prop :=
| history_nil : history [] udp_init
| history_step tr s e s' o : history tr s -> step s e = Some (s', o) -> history (tr ++ [(e, o)]) s'.

(** A schedule run from a state: for examples. *)
Fixpoint run (s : udp) (es : list event) : option (udp * list (event * obs)) :=
  match es with
  | [] => Some (s, [])
  | e :: es' =>
      match step s e with
      | Some (s', o) => option_map (fun r => (fst r, (e, o) :: snd r)) (run s' es')
      | None => None
      end
  end.

(** 177-187: [UdpSender::send]; [os] is whether the operating system accepts the datagram.  The
    result is the answer and what was handed to the operating system. *)
Definition udp_send (buffer : list N) (os : bool) : bool * option (list N) :=
  if 1400 <? length buffer then (false, None) else (os, Some buffer).
