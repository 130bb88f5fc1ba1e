(** What the claims about the v1 endpoint runtime mean, in terms of schedules and what was observed
    in them. *)
From Coq Require Import List NArith Bool PeanoNat.
From Verif Require Import BytesModel WireSpec SomeipModel SomeipSpec MapModel RuntimeModel.
Import ListNotations.
Open Scope nat_scope.

(** A history: everything that happened since the endpoint was created, in any order that is
    possible. *)
Inductive history (bk : iid -> N) (cbk : N -> N) (datagram : bool) : list (event * obs) -> rt -> Prop :=
| h_start : history bk cbk datagram [] (rt_init datagram)
| h_more tr s e s' o : history bk cbk datagram tr s -> step bk cbk s e = Some (s', o) ->
                       history bk cbk datagram (tr ++ [(e, o)]) s'.

(** What happens from a state on. *)
Inductive steps (bk : iid -> N) (cbk : N -> N) : rt -> list (event * obs) -> rt -> Prop :=
| s_none s : steps bk cbk s [] s
| s_more s e o s1 tr s2 : step bk cbk s e = Some (s1, o) -> steps bk cbk s1 tr s2 ->
                          steps bk cbk s ((e, o) :: tr) s2.

(** The messages in a packet: none if it is malformed. *)
Definition packet_messages (bs : list N) : list msg :=
  match decode bs with Some ms => ms | None => [] end.

(** The messages connection [c] has received so far, in order. *)
Definition decoded (c : nat) (tr : list (event * obs)) : list msg :=
  flat_map (fun p => match fst p with
                     | EPacket d bs => if d =? c then packet_messages bs else []
                     | _ => []
                     end) tr.

(** What stub [n] and proxy [n] have been given, in order. *)
Definition stub_got (n : nat) (tr : list (event * obs)) : list item :=
  flat_map (fun p => match p with
                     | (ERecvFrom k, OMsg it) => if k =? n then [it] else []
                     | _ => []
                     end) tr.
Definition proxy_got (n : nat) (tr : list (event * obs)) : list item :=
  flat_map (fun p => match p with
                     | (EProxyRecv k, OMsg it) => if k =? n then [it] else []
                     | _ => []
                     end) tr.
(** What anybody has been given. *)
Definition all_got (tr : list (event * obs)) : list item :=
  flat_map (fun p => match snd p with OMsg it => [it] | _ => [] end) tr.

(** Which received message an item is: the connection and its number there. *)
Definition which (it : item) : nat * nat := (it_conn it, it_no it).
Definition from_conn (c : nat) (its : list item) : list item := filter (fun it => it_conn it =? c) its.
(** The service and the version a message names. *)
Definition id_of (m : msg) : iid := (s_service m, s_interface m).
Definition of_id (id : iid) (m : msg) : bool := N.eqb (s_service m) (fst id) && N.eqb (s_interface m) (snd id).
Definition for_id (id : iid) (its : list item) : list item := filter (fun it => of_id id (it_msg it)) its.

(** Connection [c] was opened to (or accepted from) address [a]. *)
Definition opened (c : nat) (a : N) (tr : list (event * obs)) : Prop := exists e, In (e, OSpawned c a) tr.
Definition served (n : nat) (id : iid) (tr : list (event * obs)) : Prop := exists e, In (e, OStub n id) tr.
Definition proxied (n : nat) (id : iid) (a : N) (tr : list (event * obs)) : Prop := exists e, In (e, OProxy n id a) tr.

(** Whether things still exist: stub [n] and the listener it came with, proxy [n] and its
    connection, connection [c]. *)
Definition conn_runs (s : rt) (c : nat) : Prop := exists x, nth_error (r_conns s) c = Some x /\ c_alive x = true.
Definition stub_listening (s : rt) (n : nat) : Prop :=
  exists t x, nth_error (r_stubs s) n = Some t /\ nth_error (r_lsnrs s) (st_lst t) = Some x /\ l_alive x = true.
Definition stub_exists (s : rt) (n : nat) : Prop := exists t, nth_error (r_stubs s) n = Some t /\ st_alive t = true.
Definition proxy_exists (s : rt) (n : nat) : Prop := exists p, nth_error (r_proxies s) n = Some p /\ px_alive p = true.
Definition proxy_connected (s : rt) (n : nat) : Prop :=
  exists p, nth_error (r_proxies s) n = Some p /\ conn_runs s (px_conn p).

(** Messages taken off the socket by connection [c] and not routed yet. *)
Definition waiting (s : rt) (c : nat) : list item :=
  match nth_error (r_conns s) c with
  | Some x => match c_recv x with RWait todo => todo | RHold _ it todo => it :: todo end
  | None => []
  end.
(** Messages handed to stub [n]'s queue and not read yet. *)
Definition stub_backlog (s : rt) (n : nat) : list item :=
  match nth_error (r_stubs s) n with
  | Some t => match nth_error (r_ifaces s) (st_iface t) with Some y => i_queue y | None => [] end
  | None => []
  end.
Definition proxy_backlog (s : rt) (n : nat) : list item :=
  match nth_error (r_proxies s) n with
  | Some p => match nth_error (r_ifaces s) (px_iface p) with Some y => i_queue y | None => [] end
  | None => []
  end.

(** Interface [id] is in use: by a stub whose listener runs, or by a proxy whose connection runs. *)
Definition stub_user (s : rt) (tr : list (event * obs)) (id : iid) (n : nat) : Prop :=
  served n id tr /\ stub_exists s n /\ stub_listening s n.
Definition proxy_user (s : rt) (tr : list (event * obs)) (id : iid) (n : nat) : Prop :=
  exists a, proxied n id a tr /\ proxy_exists s n /\ proxy_connected s n.
Definition in_use (s : rt) (tr : list (event * obs)) (id : iid) : Prop :=
  (exists n, stub_user s tr id n) \/ (exists n, proxy_user s tr id n).

(** A message that can be sent and read back: its fields fit their types, the type and the code
    are the ones their bytes stand for, and its length fits the length field. *)
Definition ordinary (m : msg) : Prop :=
  smessage_ok m /\ bytes_ok (s_payload m) /\ (8 + len (s_payload m) < 2 ^ 32)%N /\
  s_mtype m = st_from_u8 (st_as_u8 (s_mtype m)) /\ s_rcode m = sc_from_u8 (sc_as_u8 (s_rcode m)).

(** [m] written with the length field [L] instead of its length. *)
Definition claiming (L : N) (m : msg) : list N :=
  be 2 (s_service m) ++ be 2 (s_method m) ++ be 4 L ++
  be 2 (s_client m) ++ be 2 (s_session m) ++
  [s_protocol m; s_interface m; st_as_u8 (s_mtype m); sc_as_u8 (s_rcode m)] ++ s_payload m.

(** The packets that are read, and the messages in them: whole messages, of which the last may
    claim to be longer than it is (it was cut). *)
Inductive packet : list N -> list msg -> Prop :=
| packet_end : packet [] []
| packet_more m bs ms : ordinary m -> packet bs ms -> packet (s_form m ++ bs) (m :: ms)
| packet_cut m L : ordinary m -> (8 + len (s_payload m) < L < 2 ^ 32)%N -> packet (claiming L m) [m].

(** The messages whose [send] or [send_to] returned [Ok] on connection [c]; what the socket of [c]
    took, and what it refused, in order. *)
Definition accepted (c : nat) (tr : list (event * obs)) : list msg :=
  flat_map (fun p => match snd p with OOk d m => if d =? c then [m] else [] | _ => [] end) tr.
Definition sent (c : nat) (tr : list (event * obs)) : list (list N) :=
  flat_map (fun p => match p with (ESocket d _, OSent bs) => if d =? c then [bs] else [] | _ => [] end) tr.
Definition rejected (c : nat) (tr : list (event * obs)) : list (list N) :=
  flat_map (fun p => match p with (ESocket d _, ORefused bs) => if d =? c then [bs] else [] | _ => [] end) tr.

(** The last call of [send_to] on stub [n]. *)
Definition last_send_to (n : nat) (tr : list (event * obs)) : option (N * msg) :=
  fold_left (fun r p => match fst p with ESendTo k a m => if k =? n then Some (a, m) else r | _ => r end) tr None.

(** A connection is handing a message for [id] to its owner (it waits for room in the queue). *)
Definition handing_over (s : rt) (id : iid) : Prop :=
  exists c x i it todo, nth_error (r_conns s) c = Some x /\ c_recv x = RHold i it todo /\ id_of (it_msg it) = id.

(** Connection [c] waits for room in the full queue of stub [n] (proxy [n]). *)
Definition stalled_stub (s : rt) (c n : nat) : Prop :=
  exists x t it todo, nth_error (r_conns s) c = Some x /\ c_alive x = true /\ nth_error (r_stubs s) n = Some t /\
    c_recv x = RHold (st_iface t) it todo /\ stub_exists s n /\ length (stub_backlog s n) = 16.
Definition stalled_proxy (s : rt) (c n : nat) : Prop :=
  exists x p it todo, nth_error (r_conns s) c = Some x /\ c_alive x = true /\ nth_error (r_proxies s) n = Some p /\
    c_recv x = RHold (px_iface p) it todo /\ proxy_exists s n /\ length (proxy_backlog s n) = 16.
(** Stub [n] has called [send_to] and waits for the endpoint to connect it. *)
Definition connecting (s : rt) (n : nat) : Prop :=
  exists t a m, nth_error (r_stubs s) n = Some t /\ st_pc t = SConnect a m.
(** Stub [n] is executing [send_to]. *)
Definition busy (s : rt) (n : nat) : Prop := exists t, nth_error (r_stubs s) n = Some t /\ st_pc t <> SFree.

(** The endpoint is creating an interface with id [id] for [serve] or [proxy]. *)
Definition creating (s : rt) (id : iid) : Prop :=
  (exists k, r_ep s = EpCheck id k) \/ (exists o, r_ep s = EpShare o id).

(** What the tasks do by themselves, sockets that succeed, calls that go on, and reading. *)
Definition cooperative (e : event) : Prop :=
  match e with
  | ERoute _ | ESender _ | ESocket _ true | EEp true | ETake _ true | EListener _ | EAcceptShare _ | EStub _ true
  | ERecvFrom _ | EProxyRecv _ => True
  | _ => False
  end.
(** Nothing is left to do but wait for packets, connections and calls. *)
Record idle (s : rt) : Prop := {
  no_call : r_ep s = EpWait /\ r_left s = [];
  no_send : forall n, ~ busy s n;
  all_routed : forall c, waiting s c = [];
  stubs_read : forall n, stub_exists s n -> stub_backlog s n = [];
  proxies_read : forall n, proxy_exists s n -> proxy_backlog s n = [];
  all_sent : forall c x, nth_error (r_conns s) c = Some x -> c_cmds x = [] /\ c_out x = None;
  all_shared : forall l x, nth_error (r_lsnrs s) l = Some x -> l_cmds x = [] /\ l_pc x = AWait }.
(** Connection [c] waits for room in the queue of stub [n].  The stub is not reading: it is sending,
    and for that it waits for the endpoint.  The endpoint waits for the entry [c] has locked. *)
Definition jammed (bk : iid -> N) (tr : list (event * obs)) (s : rt) (c n : nat) : Prop :=
  exists id id', served n id tr /\ stalled_stub s c n /\ connecting s n /\ creating s id' /\ bk id' = bk id.

(** Calls and what arrives from the network: events that bring new work, and how much. *)
Definition brings (e : event) : option nat :=
  match e with
  | EServe _ | EProxy _ _ | ESendTo _ _ _ => Some 8
  | EAbandon _ _ => Some 9
  | EProxySend _ _ => Some 2
  | EPacket _ bs => Some (3 * length (packet_messages bs))
  | EAccept _ _ => Some 2
  | EUpgrade => Some 1
  | ELagged _ => Some 0
  | _ => None
  end.
Definition brought (tr : list (event * obs)) : nat :=
  list_sum (map (fun p => match brings (fst p) with Some k => k | None => 0 end) tr).
(** All other events, except reading from a queue where nothing is. *)
Definition works (p : event * obs) : bool :=
  match brings (fst p), snd p with
  | Some _, _ | _, OPending | _, OClosed => false
  | None, _ => true
  end.
Definition worked (tr : list (event * obs)) : nat := length (filter works tr).

(** Somebody owns connection [c]: a proxy, a stub that opened it or is sending through it, a
    listener that accepted it, or a call of [proxy] that has not returned. *)
Inductive owned_conn (s : rt) (c : nat) : Prop :=
| own_proxy n p : nth_error (r_proxies s) n = Some p -> px_alive p = true -> px_conn p = c -> owned_conn s c
| own_stub n t a : nth_error (r_stubs s) n = Some t -> st_alive t = true -> In (a, c) (st_conns t) -> owned_conn s c
| own_opening n t a m : nth_error (r_stubs s) n = Some t -> st_alive t = true -> st_pc t = SShare a c m -> owned_conn s c
| own_sending n t a m : nth_error (r_stubs s) n = Some t -> st_alive t = true -> st_pc t = SHold a c m -> owned_conn s c
| own_listener l x a : nth_error (r_lsnrs s) l = Some x -> l_alive x = true -> In (a, c) (l_conns x) -> owned_conn s c
| own_accepting l x a : nth_error (r_lsnrs s) l = Some x -> l_alive x = true -> l_pc x = AShare a c -> owned_conn s c
| own_call a id : r_ep s = EpShare (OwnConn c a) id -> owned_conn s c
| own_call' a id i : r_ep s = EpTake (OwnConn c a) id i -> owned_conn s c.

(** Listener [l] runs. *)
Definition lsnr_runs (s : rt) (l : nat) : Prop := exists x, nth_error (r_lsnrs s) l = Some x /\ l_alive x = true.
(** The sockets of connection [c] ended it: no more can be received, or a message was refused. *)
Definition ended_by_socket (c : nat) (tr : list (event * obs)) : Prop :=
  In (EEnd c, OUnit) tr \/ exists bs, In (ESocket c false, ORefused bs) tr.
(** What the [send_to] of stub [n] does next: it goes on, or it is dropped. *)
Definition next_of (n : nat) (tr : list (event * obs)) : option (event * obs) :=
  find (fun p => match fst p with EStub k _ | ECancel k _ => k =? n | _ => false end) tr.
(** Connection [c] is the last one stub [n] opened to [a], and the [send_to] that opened it was not
    dropped before it went on; the last one listener [l] accepted from [a]. *)
Definition stub_conn (n c : nat) (a : N) (tr : list (event * obs)) : Prop :=
  exists tr1 ok tr2, tr = tr1 ++ (EStub n ok, OSpawned c a) :: tr2 /\
    (forall ok' d, ~ In (EStub n ok', OSpawned d a) tr2) /\ forall b o, next_of n tr2 <> Some (ECancel n b, o).
Definition lsnr_conn (l c : nat) (a : N) (tr : list (event * obs)) : Prop :=
  exists tr1 tr2, tr = tr1 ++ (EAccept l a, OSpawned c a) :: tr2 /\ forall d, ~ In (EAccept l a, OSpawned d a) tr2.
(** Somebody uses connection [c]: an existing proxy, an existing stub that opened it, a running
    listener that accepted it. *)
Definition used_conn (s : rt) (tr : list (event * obs)) (c : nat) : Prop :=
  (exists n p, nth_error (r_proxies s) n = Some p /\ px_alive p = true /\ px_conn p = c) \/
  (exists n a, stub_exists s n /\ stub_conn n c a tr) \/
  (exists l a, lsnr_runs s l /\ lsnr_conn l c a tr).

(** What tasks do by themselves when their handles are gone. *)
Definition winding_down (e : event) : Prop :=
  match e with
  | ESender _ | ESocket _ true | EListener _ | EUnowned _ | EUnowned_listener _ => True
  | _ => False
  end.

(** The last call of [serve] (no address) or [proxy] that reached the endpoint task. *)
Definition last_call (tr : list (event * obs)) : option (iid * option N) :=
  fold_left (fun r p => match p with
                        | (EServe id, _) => Some (id, None)
                        | (EProxy id a, _) => Some (id, Some a)
                        | (ETake _ _, OTaken id k) => Some (id, k)
                        | _ => r
                        end) tr None.
(** Interface [id] may still be in the way of a new one: its listener or connection runs, or a
    message for it is being handed over. *)
Definition occupied (s : rt) (tr : list (event * obs)) (id : iid) : Prop :=
  (exists n, served n id tr /\ stub_listening s n) \/ (exists n a, proxied n id a tr /\ proxy_connected s n) \/ handing_over s id.
(** Connection [c] to [a] was opened by a stub, or accepted by a listener, which then went on: others
    find it by its address. *)
Definition shared_conn (c : nat) (a : N) (tr : list (event * obs)) : Prop :=
  (exists tr1 n ok tr2 ok', tr = tr1 ++ (EStub n ok, OSpawned c a) :: tr2 /\ next_of n tr2 = Some (EStub n ok', OUnit)) \/
  (exists tr1 l tr2, tr = tr1 ++ (EAccept l a, OSpawned c a) :: tr2 /\ In (EAcceptShare l, OUnit) tr2).

(** Stub [n] starts another [send_to], or the one it was executing is over: it returned, or was dropped. *)
Definition call_over (n : nat) (p : event * obs) : Prop :=
  match p with
  | (ESendTo k _ _, _) | (ECancel k _, _) | (EDropStub k, _) | (EStub k _, OOk _ _) | (EStub k _, OError) => k = n
  | _ => False
  end.
(** The calls of [serve] (no address) and [proxy] whose futures were dropped before the endpoint took
    them; those among them it took later. *)
Definition abandoned (tr : list (event * obs)) : list (iid * option N) :=
  flat_map (fun p => match fst p with EAbandon id k => [(id, k)] | _ => [] end) tr.
Definition taken_up (tr : list (event * obs)) : list (iid * option N) :=
  flat_map (fun p => match p with (ETake _ _, OTaken id k) => [(id, k)] | _ => [] end) tr.
