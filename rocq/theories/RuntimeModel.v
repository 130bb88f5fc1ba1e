(** Model of rsomeip/src/endpoint/v1.rs and its submodules v1/connection.rs, v1/listener.rs and
    v1/interface.rs as a state machine (files are named in the comments as v1.rs, connection.rs,
    listener.rs and interface.rs).  Definitions only.

    One step is one action that is atomic in the program: what a task does between two [await]s
    that can suspend it, or one call of the API.  Any step may follow any other, so a list of events
    is a schedule.  A step that would have to wait (a full channel, a locked map entry) is [None].

    The sockets are the environment: what [socket::Connector], [Listener], [Sender] and [Receiver]
    return is chosen by the events.  Addresses are numbers.

    The futures of [serve], [proxy] and [send_to] may be dropped half way; [recv_from], [recv] and the
    [send] of a proxy wait at one place and do nothing until they return, so that dropping them is not
    an event.

    Simplifications: of the channel of endpoint commands (v1.rs 117) only the commands whose callers
    are gone are kept, any other call reaches the endpoint task when its event is taken, and commands
    are taken in any order ([QueueModel] has the channel itself); log output is left out. *)
From Coq Require Import List NArith Bool PeanoNat.
From Verif Require Import BytesModel UniverseModel PrimitivesModel MessageModel SomeipModel MapModel.
Import ListNotations.
Open Scope nat_scope.

(** [someip::Message<Bytes>]. *)
Definition msg := smessage (list N).

(** endpoint.rs 113-150: [InterfaceId] and its [From<&Message<T>>]. *)
Definition iid := (N * N)%type.
Definition iid_eqb (a b : iid) : bool := N.eqb (fst a) (fst b) && N.eqb (snd a) (snd b).
Definition iid_of (m : msg) : iid := (s_service m, s_interface m).

(** What travels to an interface: a message and the address it came from (connection.rs 342).
    [it_conn] and [it_no] are not in the program: they say which connection decoded the message and
    how many messages it had decoded before. *)
Record item := mkItem { it_conn : nat; it_no : nat; it_msg : msg; it_addr : N }.

(** interface.rs 37-58: an interface is an [mpsc] channel.  [i_log] is everything ever put in and
    [i_next] how much was taken out, so the queue is [skipn i_next i_log].  [i_rx]: the receiver
    exists.  [i_id] is not in the program: the id the channel was created for. *)
Record iface := mkI { i_id : iid; i_log : list item; i_next : nat; i_rx : bool }.
Definition i_queue (i : iface) : list item := skipn (i_next i) (i_log i).
Definition i_put (it : item) (i : iface) : iface := mkI (i_id i) (i_log i ++ [it]) (i_next i) (i_rx i).
Definition i_take (i : iface) : iface := mkI (i_id i) (i_log i) (S (i_next i)) (i_rx i).
Definition i_shut (i : iface) : iface := mkI (i_id i) (i_log i) (i_next i) false.

(** Where a [ReceiverTask] is: messages still to be routed (none: waiting for the socket,
    connection.rs 334), or holding the entry of the interface map and the upgraded interface while
    waiting to put a message into it (interface.rs 145-146). *)
Inductive rstate :=
| RWait (todo : list item)
| RHold (i : nat) (it : item) (todo : list item).

(** connection.rs 436-441: [Command]. *)
Inductive ccmd := CMsg (m : msg) | CTake (id : iid) (i : nat).

(** A [ConnectionTask] (connection.rs 49-80): [c_cmds] is its command channel, [c_out] the buffer
    being handed to the socket (419), [c_local] the interfaces it owns, [c_count] how many messages
    it has decoded (not in the program). *)
Record conn := mkC { c_addr : N; c_alive : bool; c_cmds : list ccmd; c_out : option (list N);
                     c_local : list (iid * nat); c_recv : rstate; c_count : nat }.

(** Where an [AcceptTask] is (listener.rs 184-194). *)
Inductive apc := AWait | AShare (a : N) (c : nat).

(** A [ListenerTask] (listener.rs 41-68): its command channel, the interfaces it owns, the
    connections it owns. *)
Record lsnr := mkL { l_alive : bool; l_cmds : list (iid * nat); l_local : list (iid * nat);
                     l_conns : list (N * nat); l_pc : apc }.

(** Where a [Stub]'s [send_to] is (v1.rs 250-259, 237-245; connection.rs 181-204). *)
Inductive spc :=
| SFree                                  (* no call is active *)
| SCheck (a : N) (m : msg)               (* 255: before [connections.check] *)
| SConnect (a : N) (m : msg)             (* 239: before the endpoint connects *)
| SShare (a : N) (c : nat) (m : msg)     (* 240: before [share_and_store] *)
| SSend (a : N) (m : msg)                (* 258: before [entry_async] *)
| SHold (a : N) (c : nat) (m : msg).     (* connection.rs 191: entry and connection held *)

(** v1.rs 219-228 and 283-290: [Stub] and [Proxy]. *)
Record stub := mkSt { st_iface : nat; st_lst : nat; st_conns : list (N * nat); st_pc : spc; st_alive : bool }.
Record proxy := mkP { px_iface : nat; px_conn : nat; px_remote : N; px_alive : bool }.

(** What will own a new interface. *)
Inductive owner := OwnListener (l : nat) | OwnConn (c : nat) (a : N).

(** Where the [EndpointTask] is (v1.rs 367-499).  The second argument is [None] for [stub] and
    [Some address] for [proxy]. *)
Inductive epc :=
| EpWait                                 (* 368: waiting for a command *)
| EpCheck (id : iid) (k : option N)      (* 425, 482: before [interfaces.check] *)
| EpReady (id : iid) (k : option N)      (* 430, 487: before the listener or connection is found *)
| EpShare (o : owner) (id : iid)         (* 433, 490: before [interfaces.share] *)
| EpTake (o : owner) (id : iid) (i : nat).  (* 434, 491: before [take] *)

(** v1.rs 531-559: [Command], of a caller who has dropped the future of the call. *)
Inductive ecmd := KConnect (a : N) | KCall (id : iid) (k : option N).

(** Everything an endpoint consists of.  [r_open]: an [Endpoint] handle exists outside.
    [r_datagram]: [C::PROTOCOL_TYPE] is [Datagram].  [r_listener]: the weak listener handle.
    [r_imap], [r_cmap]: the shared maps (interface.rs 115, connection.rs 156).  [r_left]: the
    commands whose callers are gone.  The other lists hold every object ever created, referred to by
    position. *)
Record rt := mkR { r_open : bool; r_datagram : bool; r_ep : epc; r_listener : option nat;
                   r_imap : list (iid * nat); r_cmap : list (N * nat);
                   r_ifaces : list iface; r_conns : list conn; r_lsnrs : list lsnr;
                   r_stubs : list stub; r_proxies : list proxy; r_left : list ecmd }.

(** v1.rs 111-125, 341-351: [Endpoint::spawn]. *)
Definition rt_init (datagram : bool) : rt :=
  mkR true datagram EpWait None [] [] [] [] [] [] [] [].

(** What the API returns, what is handed to the sockets, and what becomes of a message being
    routed. *)
Inductive obs :=
| OUnit
| OStub (n : nat) (id : iid)             (* [serve] returns a stub *)
| OProxy (n : nat) (id : iid) (a : N)    (* [proxy] returns a proxy *)
| OExists                                (* "already exists" *)
| OError                                 (* any other error *)
| OMsg (it : item)
| OClosed
| OPending                               (* the receiver would wait *)
| OOk (c : nat) (m : msg)                (* a [send] returns [Ok]: connection [c] has the message *)
| OSpawned (c : nat) (a : N)             (* a connection task starts *)
| OTaken (id : iid) (k : option N)       (* the endpoint task takes a call whose caller is gone *)
| OSent (bs : list N)                    (* the socket took the bytes *)
| ORefused (bs : list N)                 (* the socket returned an error *)
| OHeld (it : item)
| ORouted (it : item)
| ODropped (it : item).

(** Every function below is total on positions: a position that is not there does nothing. *)
Fixpoint upd {A} (n : nat) (f : A -> A) (l : list A) : list A :=
  match l, n with
  | [], _ => []
  | x :: l', 0 => f x :: l'
  | x :: l', S n' => x :: upd n' f l'
  end.

Fixpoint drop_nth {A} (n : nat) (l : list A) : list A :=
  match l, n with
  | [], _ => []
  | _ :: l', 0 => l'
  | x :: l', S n' => x :: drop_nth n' l'
  end.

(** Writing parts of the state. *)
Definition set_ep (p : epc) (s : rt) : rt :=
  mkR (r_open s) (r_datagram s) p (r_listener s) (r_imap s) (r_cmap s) (r_ifaces s) (r_conns s) (r_lsnrs s) (r_stubs s) (r_proxies s) (r_left s).
Definition set_open (b : bool) (s : rt) : rt :=
  mkR b (r_datagram s) (r_ep s) (r_listener s) (r_imap s) (r_cmap s) (r_ifaces s) (r_conns s) (r_lsnrs s) (r_stubs s) (r_proxies s) (r_left s).
Definition set_listener (l : option nat) (s : rt) : rt :=
  mkR (r_open s) (r_datagram s) (r_ep s) l (r_imap s) (r_cmap s) (r_ifaces s) (r_conns s) (r_lsnrs s) (r_stubs s) (r_proxies s) (r_left s).
Definition set_imap (m : list (iid * nat)) (s : rt) : rt :=
  mkR (r_open s) (r_datagram s) (r_ep s) (r_listener s) m (r_cmap s) (r_ifaces s) (r_conns s) (r_lsnrs s) (r_stubs s) (r_proxies s) (r_left s).
Definition set_cmap (m : list (N * nat)) (s : rt) : rt :=
  mkR (r_open s) (r_datagram s) (r_ep s) (r_listener s) (r_imap s) m (r_ifaces s) (r_conns s) (r_lsnrs s) (r_stubs s) (r_proxies s) (r_left s).
Definition set_ifaces (x : list iface) (s : rt) : rt :=
  mkR (r_open s) (r_datagram s) (r_ep s) (r_listener s) (r_imap s) (r_cmap s) x (r_conns s) (r_lsnrs s) (r_stubs s) (r_proxies s) (r_left s).
Definition set_conns (x : list conn) (s : rt) : rt :=
  mkR (r_open s) (r_datagram s) (r_ep s) (r_listener s) (r_imap s) (r_cmap s) (r_ifaces s) x (r_lsnrs s) (r_stubs s) (r_proxies s) (r_left s).
Definition set_lsnrs (x : list lsnr) (s : rt) : rt :=
  mkR (r_open s) (r_datagram s) (r_ep s) (r_listener s) (r_imap s) (r_cmap s) (r_ifaces s) (r_conns s) x (r_stubs s) (r_proxies s) (r_left s).
Definition set_stubs (x : list stub) (s : rt) : rt :=
  mkR (r_open s) (r_datagram s) (r_ep s) (r_listener s) (r_imap s) (r_cmap s) (r_ifaces s) (r_conns s) (r_lsnrs s) x (r_proxies s) (r_left s).
Definition set_proxies (x : list proxy) (s : rt) : rt :=
  mkR (r_open s) (r_datagram s) (r_ep s) (r_listener s) (r_imap s) (r_cmap s) (r_ifaces s) (r_conns s) (r_lsnrs s) (r_stubs s) x (r_left s).
Definition set_left (x : list ecmd) (s : rt) : rt :=
  mkR (r_open s) (r_datagram s) (r_ep s) (r_listener s) (r_imap s) (r_cmap s) (r_ifaces s) (r_conns s) (r_lsnrs s) (r_stubs s) (r_proxies s) x.

Definition upd_iface i f (s : rt) : rt := set_ifaces (upd i f (r_ifaces s)) s.
Definition upd_conn c f (s : rt) : rt := set_conns (upd c f (r_conns s)) s.
Definition upd_lsnr l f (s : rt) : rt := set_lsnrs (upd l f (r_lsnrs s)) s.
Definition upd_stub n f (s : rt) : rt := set_stubs (upd n f (r_stubs s)) s.
Definition upd_proxy n f (s : rt) : rt := set_proxies (upd n f (r_proxies s)) s.

Definition c_with_cmds q (c : conn) := mkC (c_addr c) (c_alive c) q (c_out c) (c_local c) (c_recv c) (c_count c).
Definition c_with_out o (c : conn) := mkC (c_addr c) (c_alive c) (c_cmds c) o (c_local c) (c_recv c) (c_count c).
Definition c_with_local m (c : conn) := mkC (c_addr c) (c_alive c) (c_cmds c) (c_out c) m (c_recv c) (c_count c).
Definition c_with_recv r (c : conn) := mkC (c_addr c) (c_alive c) (c_cmds c) (c_out c) (c_local c) r (c_count c).
Definition c_with_count n (c : conn) := mkC (c_addr c) (c_alive c) (c_cmds c) (c_out c) (c_local c) (c_recv c) n.
Definition l_with_cmds q (l : lsnr) := mkL (l_alive l) q (l_local l) (l_conns l) (l_pc l).
Definition l_with_local m (l : lsnr) := mkL (l_alive l) (l_cmds l) m (l_conns l) (l_pc l).
Definition l_with_conns m (l : lsnr) := mkL (l_alive l) (l_cmds l) (l_local l) m (l_pc l).
Definition l_with_pc p (l : lsnr) := mkL (l_alive l) (l_cmds l) (l_local l) (l_conns l) p.
Definition st_with_pc p (t : stub) := mkSt (st_iface t) (st_lst t) (st_conns t) p (st_alive t).
Definition st_with_conns m (t : stub) := mkSt (st_iface t) (st_lst t) m (st_pc t) (st_alive t).

(** connection.rs 49-80: a new [ConnectionTask]; listener.rs 41-68: a new [ListenerTask]. *)
Definition new_conn (a : N) : conn := mkC a true [] None [] (RWait []) 0.
Definition new_lsnr : lsnr := mkL true [] [] [] AWait.

(** A task that returned: its channel and everything it owned is dropped (connection.rs 285-293,
    listener.rs 141-149).  An entry of the interface map it held is released. *)
Definition end_conn (c : conn) : conn := mkC (c_addr c) false [] None [] (RWait []) (c_count c).
Definition end_lsnr (l : lsnr) : lsnr := mkL false [] [] [] AWait.
(** A [Stub] that was dropped, with its [Connections] and its [Listener] handle. *)
Definition end_stub (t : stub) : stub := mkSt (st_iface t) (st_lst t) [] SFree false.
Definition end_proxy (p : proxy) : proxy := mkP (px_iface p) (px_conn p) (px_remote p) false.

(** Owning handles.  A weak handle upgrades iff one of these exists (interface.rs 92-96,
    connection.rs 133-137, listener.rs 119-123). *)
Definition holds_value {K} (n : nat) (m : list (K * nat)) : bool := existsb (fun e => snd e =? n) m.
Definition cmd_has (i : nat) (x : ccmd) : bool := match x with CTake _ j => j =? i | CMsg _ => false end.
Definition recv_has (i : nat) (r : rstate) : bool := match r with RHold j _ _ => j =? i | RWait _ => false end.
Definition conn_has (i : nat) (c : conn) : bool :=
  c_alive c && (holds_value i (c_local c) || existsb (cmd_has i) (c_cmds c) || recv_has i (c_recv c)).
Definition lsnr_has (i : nat) (l : lsnr) : bool :=
  l_alive l && (holds_value i (l_local l) || holds_value i (l_cmds l)).
Definition ep_has (i : nat) (p : epc) : bool := match p with EpTake _ _ j => j =? i | _ => false end.
Definition iface_strong (s : rt) (i : nat) : bool :=
  existsb (conn_has i) (r_conns s) || existsb (lsnr_has i) (r_lsnrs s) || ep_has i (r_ep s).

Definition owner_is_conn (c : nat) (o : owner) : bool := match o with OwnConn d _ => d =? c | _ => false end.
Definition owner_is_lsnr (l : nat) (o : owner) : bool := match o with OwnListener k => k =? l | _ => false end.
Definition ep_owner (p : owner -> bool) (e : epc) : bool :=
  match e with EpShare o _ | EpTake o _ _ => p o | _ => false end.
Definition stub_has (c : nat) (t : stub) : bool :=
  st_alive t && (holds_value c (st_conns t) ||
                 match st_pc t with SShare _ d _ | SHold _ d _ => d =? c | _ => false end).
Definition lsnr_keeps (c : nat) (l : lsnr) : bool :=
  l_alive l && (holds_value c (l_conns l) || match l_pc l with AShare _ d => d =? c | AWait => false end).
Definition proxy_has (c : nat) (p : proxy) : bool := px_alive p && (px_conn p =? c).
Definition conn_strong (s : rt) (c : nat) : bool :=
  existsb (stub_has c) (r_stubs s) || existsb (lsnr_keeps c) (r_lsnrs s) || existsb (proxy_has c) (r_proxies s) ||
  ep_owner (owner_is_conn c) (r_ep s).
Definition lsnr_strong (s : rt) (l : nat) : bool :=
  existsb (fun t => st_alive t && (st_lst t =? l)) (r_stubs s) || ep_owner (owner_is_lsnr l) (r_ep s).
(** A [Stub] that is connecting owns an [Endpoint] (v1.rs 238). *)
Definition ep_strong (s : rt) : bool :=
  r_open s || existsb (fun t => match st_pc t with SConnect _ _ | SShare _ _ _ => st_alive t | _ => false end) (r_stubs s).

(** [scc::HashMap] locks the bucket an entry is in.  [bk] and [cbk] say which bucket that is; all
    statements hold whatever they are. *)
Section Locks.
Context (bk : iid -> N) (cbk : N -> N).

Definition recv_locks (b : N) (c : conn) : bool :=
  match c_recv c with RHold _ it _ => N.eqb (bk (iid_of (it_msg it))) b | RWait _ => false end.
Definition locked (s : rt) (id : iid) : bool := existsb (recv_locks (bk id)) (r_conns s).
Definition stub_locks (b : N) (t : stub) : bool :=
  match st_pc t with SHold a _ _ => N.eqb (cbk a) b | _ => false end.
Definition clocked (s : rt) (a : N) : bool := existsb (stub_locks (cbk a)) (r_stubs s).

(** interface.rs 191-198 and connection.rs 238-256: is there an entry whose handle upgrades? *)
Definition live_iface (s : rt) (id : iid) : option nat :=
  match map_get iid_eqb id (r_imap s) with
  | Some i => if iface_strong s i then Some i else None
  | None => None
  end.
Definition live_conn (s : rt) (a : N) : option nat :=
  match map_get N.eqb a (r_cmap s) with
  | Some c => if conn_strong s c then Some c else None
  | None => None
  end.
Definition live_lsnr (s : rt) : option nat :=
  match r_listener s with
  | Some l => if lsnr_strong s l then Some l else None
  | None => None
  end.

(** connection.rs 336-337: what a packet decodes to, if it does. *)
Definition decode (bs : list N) : option (list msg) :=
  match de_vec (de_smessage de_bytes) bs with DOk ms _ => Some ms | _ => None end.

(** 342-343, with the numbering. *)
Fixpoint number (c : nat) (a : N) (n : nat) (ms : list msg) : list item :=
  match ms with
  | [] => []
  | m :: ms' => mkItem c n m a :: number c a (S n) ms'
  end.

(** 414-418: what [send] hands to the socket.  The buffer has room for 16 bytes and the payload. *)
Definition encode (m : msg) : list N :=
  match serialize (ser_smessage ser_bytes) m (mkW [] (16 + len (s_payload m))) with
  | WOk _ b | WErr _ b => w_data b
  | WPanic => []
  end.

(** The events. *)
Inductive event :=
| EServe (id : iid)                     (* [Endpoint::serve], v1.rs 158-166 *)
| EProxy (id : iid) (a : N)             (* [Endpoint::proxy], 168-180 *)
| EEp (ok : bool)                       (* the endpoint task; [ok]: the connector succeeds *)
| EAbandon (id : iid) (k : option N)    (* [serve] or [proxy] is called, and its future dropped before
                                           the endpoint task takes the command *)
| ETake (k : nat) (ok : bool)           (* the endpoint task takes a command nobody waits for, the one at
                                           position [k]; [ok]: the connector succeeds *)
| EClose                                (* the last [Endpoint] outside is dropped *)
| EUpgrade                              (* [WeakEndpoint::upgrade], 200-204 *)
| EPacket (c : nat) (bs : list N)       (* the receiving socket of [c] returns bytes *)
| ELagged (c : nat)                     (* ... an error [Lagged] *)
| EEnd (c : nat)                        (* ... an error [Closed] *)
| ERoute (c : nat)                      (* the receiver of [c] routes *)
| ESender (c : nat)                     (* the sender of [c] takes a command *)
| ESocket (c : nat) (ok : bool)         (* the sending socket of [c] returns *)
| EUnowned (c : nat)                    (* the sender of [c] finds every handle dropped *)
| EAccept (l : nat) (a : N)             (* the listening socket of [l] returns a connection *)
| EAcceptEnd (l : nat)                  (* ... nothing *)
| EAcceptShare (l : nat)                (* the listener [l] shares it *)
| EListener (l : nat)                   (* the listener [l] takes a command *)
| EUnowned_listener (l : nat)           (* the listener [l] finds every handle dropped *)
| ESendTo (n : nat) (a : N) (m : msg)   (* [Stub::send_to] starts *)
| EStub (n : nat) (ok : bool)           (* ... goes on; [ok]: the connector succeeds *)
| ECancel (n : nat) (sent : bool)       (* ... is dropped; [sent]: if it was waiting for the endpoint to
                                           connect, the command was in the channel *)
| ERecvFrom (n : nat)                   (* [Stub::recv_from] *)
| EDropStub (n : nat)
| EProxySend (n : nat) (m : msg)        (* [Proxy::send] *)
| EProxyRecv (n : nat)                  (* [Proxy::recv], one turn of its loop *)
| EDropProxy (n : nat).

(** v1.rs 406-409, 510-514; listener.rs 187: a new connection task. *)
Definition spawn (a : N) (s : rt) : rt := set_conns (r_conns s ++ [new_conn a]) s.

(** The endpoint task. *)
Definition step_ep (ok : bool) (s : rt) : option (rt * obs) :=
  match r_ep s with
  | EpWait => None
  | EpCheck id k =>                                                  (* 425-427, 482-484 *)
      if locked s id then None
      else match live_iface s id with
           | Some _ => Some (set_ep EpWait s, OExists)
           | None => Some (set_ep (EpReady id k) s, OUnit)
           end
  | EpReady id None =>                                               (* 430, 450-471 *)
      match live_lsnr s with
      | Some l => Some (set_ep (EpShare (OwnListener l) id) s, OUnit)
      | None =>
          if ok then
            let l := length (r_lsnrs s) in
            Some (set_ep (EpShare (OwnListener l) id)
                    (set_listener (Some l) (set_lsnrs (r_lsnrs s ++ [new_lsnr]) s)), OUnit)
          else Some (set_ep EpWait s, OError)
      end
  | EpReady id (Some a) =>                                           (* 487, 506-515 *)
      if clocked s a then None
      else match live_conn s a with
           | Some c => Some (set_ep (EpShare (OwnConn c a) id) s, OUnit)
           | None =>
               if ok then
                 let c := length (r_conns s) in
                 Some (set_ep (EpShare (OwnConn c a) id) (spawn a s), OSpawned c a)
               else Some (set_ep EpWait s, OError)
           end
  | EpShare o id =>                                                  (* 518-528, interface.rs 177-179 *)
      if locked s id then None
      else
        let i := length (r_ifaces s) in
        Some (set_ep (EpTake o id i)
                (set_imap (map_insert iid_eqb id i (r_imap s))
                   (set_ifaces (r_ifaces s ++ [mkI id [] 0 true]) s)), OUnit)
  | EpTake (OwnListener l) id i =>                                   (* 434-443, listener.rs 78-81 *)
      match nth_error (r_lsnrs s) l with
      | None => None
      | Some x =>
          if l_alive x then
            if length (l_cmds x) <? 8 then
              Some (set_ep EpWait
                      (set_stubs (r_stubs s ++ [mkSt i l [] SFree true])
                         (upd_lsnr l (l_with_cmds (l_cmds x ++ [(id, i)])) s)), OStub (length (r_stubs s)) id)
            else None
          else Some (set_ep EpWait (upd_iface i i_shut s), OError)
      end
  | EpTake (OwnConn c a) id i =>                                     (* 491-498, connection.rs 103-109 *)
      match nth_error (r_conns s) c with
      | None => None
      | Some x =>
          if c_alive x then
            if length (c_cmds x) <? 1 then
              Some (set_ep EpWait
                      (set_proxies (r_proxies s ++ [mkP i c a true])
                         (upd_conn c (c_with_cmds (c_cmds x ++ [CTake id i])) s)), OProxy (length (r_proxies s)) id a)
            else None
          else Some (set_ep EpWait (upd_iface i i_shut s), OError)
      end
  end.

(** 368-381, for a caller who is gone: the answer is dropped with what it holds (370, 372, 377).  A
    stub or proxy made by [step_ep] for such a call is dropped by an event of its own. *)
Definition step_take (k : nat) (ok : bool) (s : rt) : option (rt * obs) :=
  let s' := set_left (drop_nth k (r_left s)) s in
  match r_ep s, nth_error (r_left s) k with
  | EpWait, Some (KCall id to) => Some (set_ep (EpCheck id to) s', OTaken id to)
  | EpWait, Some (KConnect a) =>                                     (* 402-413 *)
      if r_datagram s && ok then Some (spawn a s', OSpawned (length (r_conns s)) a)
      else Some (s', OUnit)
  | _, _ => None
  end.

(** interface.rs 140-160 through 165-172: routing the next message. *)
Definition step_route (c : nat) (x : conn) (s : rt) : option (rt * obs) :=
  match c_recv x with
  | RWait [] => None
  | RWait (it :: todo) =>
      let id := iid_of (it_msg it) in
      if locked s id then None
      else match map_get iid_eqb id (r_imap s) with
           | None => Some (upd_conn c (c_with_recv (RWait todo)) s, ODropped it)                  (* 156 *)
           | Some i =>
               if iface_strong s i
               then Some (upd_conn c (c_with_recv (RHold i it todo)) s, OHeld it)                 (* 146 *)
               else Some (upd_conn c (c_with_recv (RWait todo))
                            (set_imap (map_remove iid_eqb id (r_imap s)) s), ODropped it)         (* 152 *)
           end
  | RHold i it todo =>
      match nth_error (r_ifaces s) i with
      | None => None
      | Some y =>
          if i_rx y then
            if length (i_queue y) <? 16
            then Some (upd_conn c (c_with_recv (RWait todo)) (upd_iface i (i_put it) s), ORouted it) (* 147 *)
            else None
          else Some (upd_conn c (c_with_recv (RWait todo))
                       (set_imap (map_remove iid_eqb (iid_of (it_msg it)) (r_imap s)) s), ODropped it)  (* 148 *)
      end
  end.

(** connection.rs 87-93 and 103-109 on a channel of capacity 1: [None] if it is full. *)
Definition push_cmd (c : nat) (q : ccmd) (s : rt) : option (option rt) :=
  match nth_error (r_conns s) c with
  | None => None
  | Some x =>
      if c_alive x
      then if length (c_cmds x) <? 1 then Some (Some (upd_conn c (c_with_cmds (c_cmds x ++ [q])) s)) else None
      else Some None
  end.

(** [Stub::send_to]. *)
Definition step_stub (n : nat) (t : stub) (ok : bool) (s : rt) : option (rt * obs) :=
  let goto p := upd_stub n (st_with_pc p) in
  match st_pc t with
  | SFree => None
  | SCheck a m =>                                                    (* 255, 238, 242; connection.rs 248-255 *)
      if clocked s a then None
      else match live_conn s a with
           | Some _ => Some (goto (SSend a m) s, OUnit)
           | None => if ep_strong s then Some (goto (SConnect a m) s, OUnit) else Some (goto SFree s, OError)
           end
  | SConnect a m =>                                                  (* 239, 402-413 *)
      match r_ep s with
      | EpWait =>
          if r_datagram s && ok then
            let c := length (r_conns s) in
            Some (goto (SShare a c m) (spawn a s), OSpawned c a)
          else Some (goto SFree s, OError)
      | _ => None
      end
  | SShare a c m =>                                                  (* 240; connection.rs 209-233 *)
      if clocked s a then None
      else Some (upd_stub n (fun t => st_with_pc (SSend a m) (st_with_conns (map_insert N.eqb a c (st_conns t)) t))
                   (set_cmap (map_insert N.eqb a c (r_cmap s)) s), OUnit)
  | SSend a m =>                                                     (* connection.rs 188-190, 195-201 *)
      if clocked s a then None
      else match map_get N.eqb a (r_cmap s) with
           | None => Some (goto SFree s, OError)
           | Some c =>
               if conn_strong s c then Some (goto (SHold a c m) s, OUnit)
               else Some (goto SFree (set_cmap (map_remove N.eqb a (r_cmap s)) s), OError)
           end
  | SHold a c m =>                                                   (* 191-194 *)
      match push_cmd c (CMsg m) s with
      | None => None
      | Some (Some s') => Some (goto SFree s', OOk c m)
      | Some None => Some (goto SFree (set_cmap (map_remove N.eqb a (r_cmap s)) s), OError)
      end
  end.

(** tokio's [mpsc::Receiver::recv] on the channel of interface [i]. *)
Definition i_recv (i : nat) (s : rt) : option (rt * obs) :=
  match nth_error (r_ifaces s) i with
  | None => None
  | Some y =>
      match i_queue y with
      | it :: _ => Some (upd_iface i i_take s, OMsg it)
      | [] => Some (s, if iface_strong s i then OPending else OClosed)
      end
  end.

Definition step (s : rt) (e : event) : option (rt * obs) :=
  match e with
  | EServe id =>
      match r_open s, r_ep s with
      | true, EpWait => Some (set_ep (EpCheck id None) s, OUnit)
      | _, _ => None
      end
  | EProxy id a =>
      match r_open s, r_ep s with
      | true, EpWait => Some (set_ep (EpCheck id (Some a)) s, OUnit)
      | _, _ => None
      end
  | EEp ok => step_ep ok s
  | EAbandon id k => if r_open s then Some (set_left (r_left s ++ [KCall id k]) s, OUnit) else None
  | ETake k ok => step_take k ok s
  | EClose => if r_open s then Some (set_open false s, OUnit) else None
  | EUpgrade => if ep_strong s then Some (set_open true s, OUnit) else Some (s, OError)
  | EPacket c bs =>                                                  (* connection.rs 334-350 *)
      match nth_error (r_conns s) c with
      | Some x =>
          match c_alive x, c_recv x with
          | true, RWait [] =>
              match decode bs with
              | Some ms =>
                  Some (upd_conn c (fun x => c_with_count (c_count x + length ms)
                                    (c_with_recv (RWait (number c (c_addr x) (c_count x) ms)) x)) s, OUnit)
              | None => Some (s, OUnit)
              end
          | _, _ => None
          end
      | None => None
      end
  | ELagged c =>                                                     (* 351-355 *)
      match nth_error (r_conns s) c with
      | Some x => match c_alive x, c_recv x with true, RWait [] => Some (s, OUnit) | _, _ => None end
      | None => None
      end
  | EEnd c =>                                                        (* 356-360 *)
      match nth_error (r_conns s) c with
      | Some x =>
          match c_alive x, c_recv x with
          | true, RWait [] => Some (upd_conn c end_conn s, OUnit)
          | _, _ => None
          end
      | None => None
      end
  | ERoute c =>
      match nth_error (r_conns s) c with
      | Some x => if c_alive x then step_route c x s else None
      | None => None
      end
  | ESender c =>                                                     (* 397-405, 414-418, 429-431 *)
      match nth_error (r_conns s) c with
      | Some x =>
          match c_alive x, c_out x, c_cmds x with
          | true, None, CMsg m :: q => Some (upd_conn c (fun x => c_with_out (Some (encode m)) (c_with_cmds q x)) s, OUnit)
          | true, None, CTake id i :: q =>
              Some (upd_conn c (fun x => c_with_local (map_insert iid_eqb id i (c_local x)) (c_with_cmds q x)) s, OUnit)
          | _, _, _ => None
          end
      | None => None
      end
  | ESocket c ok =>                                                  (* 419-423 *)
      match nth_error (r_conns s) c with
      | Some x =>
          match c_alive x, c_out x with
          | true, Some bs =>
              if ok then Some (upd_conn c (c_with_out None) s, OSent bs)
              else Some (upd_conn c end_conn s, ORefused bs)
          | _, _ => None
          end
      | None => None
      end
  | EUnowned c =>                                                    (* 398 *)
      match nth_error (r_conns s) c with
      | Some x =>
          match c_alive x, c_out x, c_cmds x with
          | true, None, [] => if conn_strong s c then None else Some (upd_conn c end_conn s, OUnit)
          | _, _, _ => None
          end
      | None => None
      end
  | EAccept l a =>                                                   (* listener.rs 186-187 *)
      match nth_error (r_lsnrs s) l with
      | Some x =>
          match l_alive x, l_pc x with
          | true, AWait =>
              let c := length (r_conns s) in
              Some (upd_lsnr l (l_with_pc (AShare a c)) (spawn a s), OSpawned c a)
          | _, _ => None
          end
      | None => None
      end
  | EAcceptEnd l =>                                                  (* 189-192 *)
      match nth_error (r_lsnrs s) l with
      | Some x => match l_alive x, l_pc x with true, AWait => Some (upd_lsnr l end_lsnr s, OUnit) | _, _ => None end
      | None => None
      end
  | EAcceptShare l =>                                                (* 188 *)
      match nth_error (r_lsnrs s) l with
      | Some x =>
          match l_alive x, l_pc x with
          | true, AShare a c =>
              if clocked s a then None
              else Some (upd_lsnr l (fun x => l_with_pc AWait (l_with_conns (map_insert N.eqb a c (l_conns x)) x))
                           (set_cmap (map_insert N.eqb a c (r_cmap s)) s), OUnit)
          | _, _ => None
          end
      | None => None
      end
  | EListener l =>                                                   (* 219-225 *)
      match nth_error (r_lsnrs s) l with
      | Some x =>
          match l_alive x, l_cmds x with
          | true, (id, i) :: q =>
              Some (upd_lsnr l (fun x => l_with_local (map_insert iid_eqb id i (l_local x)) (l_with_cmds q x)) s, OUnit)
          | _, _ => None
          end
      | None => None
      end
  | EUnowned_listener l =>                                           (* 220 *)
      match nth_error (r_lsnrs s) l with
      | Some x =>
          match l_alive x, l_cmds x with
          | true, [] => if lsnr_strong s l then None else Some (upd_lsnr l end_lsnr s, OUnit)
          | _, _ => None
          end
      | None => None
      end
  | ESendTo n a m =>                                                 (* v1.rs 250-254 *)
      match nth_error (r_stubs s) n with
      | Some t =>
          match st_alive t, st_pc t with
          | true, SFree => Some (upd_stub n (st_with_pc (SCheck a m)) s, OUnit)
          | _, _ => None
          end
      | None => None
      end
  | EStub n ok =>
      match nth_error (r_stubs s) n with
      | Some t => if st_alive t then step_stub n t ok s else None
      | None => None
      end
  | ECancel n sent =>
      match nth_error (r_stubs s) n with
      | Some t =>
          if st_alive t then
            let s' := upd_stub n (st_with_pc SFree) s in
            match st_pc t with
            | SFree => None
            | SConnect a _ => Some (if sent then set_left (r_left s ++ [KConnect a]) s' else s', OUnit)
            | _ => Some (s', OUnit)
            end
          else None
      | None => None
      end
  | ERecvFrom n =>                                                   (* 262-267 *)
      match nth_error (r_stubs s) n with
      | Some t =>
          match st_alive t, st_pc t with
          | true, SFree => i_recv (st_iface t) s
          | _, _ => None
          end
      | None => None
      end
  | EDropStub n =>                                                   (* an active [send_to] ends as by [ECancel n false] *)
      match nth_error (r_stubs s) n with
      | Some t => if st_alive t then Some (upd_iface (st_iface t) i_shut (upd_stub n end_stub s), OUnit) else None
      | None => None
      end
  | EProxySend n m =>                                                (* 294-296 *)
      match nth_error (r_proxies s) n with
      | Some p =>
          if px_alive p then
            match push_cmd (px_conn p) (CMsg m) s with
            | None => None
            | Some (Some s') => Some (s', OOk (px_conn p) m)
            | Some None => Some (s, OError)
            end
          else None
      | None => None
      end
  | EProxyRecv n =>                                                  (* 299-314 *)
      match nth_error (r_proxies s) n with
      | Some p =>
          if px_alive p then
            match i_recv (px_iface p) s with
            | Some (s', OMsg it) => if N.eqb (px_remote p) (it_addr it) then Some (s', OMsg it) else Some (s', OUnit)
            | r => r
            end
          else None
      | None => None
      end
  | EDropProxy n =>
      match nth_error (r_proxies s) n with
      | Some p => if px_alive p then Some (upd_iface (px_iface p) i_shut (upd_proxy n end_proxy s), OUnit) else None
      | None => None
      end
  end.

(** A schedule, with what was observed. *)
Fixpoint run (s : rt) (es : list event) : option (rt * list (event * obs)) :=
  match es with
  | [] => Some (s, [])
  | e :: es' =>
      match step s e with
      | Some (s', o) =>
          match run s' es' with
          | Some (s'', tr) => Some (s'', (e, o) :: tr)
          | None => None
          end
      | None => None
      end
  end.
End Locks.
