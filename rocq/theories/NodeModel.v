(** Model of a v1 endpoint whose connector is a [UdpSocket] (rsomeip/src/endpoint/v1.rs 111-125 with
    [C := udp::UdpSocket], rsomeip/src/socket/udp.rs): the runtime of RuntimeModel.v on top of the
    socket of UdpModel.v.  Definitions only.

    What RuntimeModel.v leaves to the environment is done here by the socket: the answers of its
    [Connector], [Listener], [Sender] and [Receiver].  Both machines keep the granularity they have
    in their own files.  The second half of the file joins several such endpoints by a network. *)
From Coq Require Import List NArith Bool PeanoNat.
From Verif Require Import BytesModel MapModel RuntimeModel.
From Verif Require UdpModel.
Import ListNotations.
Open Scope nat_scope.

(** An endpoint and its socket.  [n_chan] says which channel of the socket the [UdpReceiver] and
    [UdpSender] of each connection task belong to (connection.rs 49-80), [n_lst] which queue the
    [UdpListener] of each listener task reads (listener.rs 41-68). *)
Record node := mkN { n_rt : rt; n_udp : UdpModel.udp; n_chan : list nat; n_lst : list nat }.

(** v1.rs 111-125 after udp.rs 105-130: the protocol type of UDP is [Datagram] (udp.rs 138). *)
Definition node_init : node := mkN (rt_init true) UdpModel.udp_init [] [].

(** What one step did: in the runtime, in the socket, and the datagram the operating system took. *)
Record entry := mkE { e_rt : option (event * obs); e_udp : option (UdpModel.event * UdpModel.obs);
                      e_out : option (N * list N) }.

(** The events.  [NRun e] is an event of the runtime in which no socket answers, or in which the
    socket is asked to connect or to listen. *)
Inductive nevent :=
| NRun (e : event)
| NDatagram (a : N) (d : list N)        (* a datagram arrives from [a] *)
| NTask                                 (* the receiver task of the socket takes a step *)
| NFail                                 (* [recv_from] of the operating system fails *)
| NRecv (c : nat)                       (* the receiving half of connection [c] is read *)
| NSend (c : nat) (os : bool)           (* its sending half sends; [os]: the system takes it *)
| NAccept (l : nat)                     (* the listening socket of listener [l] is read *)
| NDropReceiver (c : nat)               (* the receiving half of a connection that ended is dropped *)
| NDropListener (l : nat)               (* the listening socket of a listener that ended is dropped *)
| NDropSocket.                          (* the endpoint task ended and the socket is dropped *)

(** Events of the runtime that are not answers of a socket.  [UdpSocket::connect] and [listen] return
    [Ok] (udp.rs 140-161), so the answers [false] do not occur. *)
Definition internal (e : event) : bool :=
  match e with
  | EPacket _ _ | ELagged _ | EEnd _ | ESocket _ _ | EAccept _ _ | EAcceptEnd _ => false
  | EEp ok | ETake _ ok | EStub _ ok => ok
  | _ => true
  end.

Section Locks.
Context (bk : iid -> N) (cbk : N -> N).

(** Both halves take a step. *)
Definition pair_step (s : node) (e : event) (r : rt) (o : obs) (f : UdpModel.event) (u : UdpModel.udp)
  (q : UdpModel.obs) (ch ls : list nat) (out : option (N * list N)) : option (node * entry) :=
  Some (mkN r u (n_chan s ++ ch) (n_lst s ++ ls), mkE (Some (e, o)) (Some (f, q)) out).

(** The runtime takes the step [e] because the socket answered [q] to [f]. *)
Definition answer (s : node) (e : event) (f : UdpModel.event) (u : UdpModel.udp) (q : UdpModel.obs) (ch : list nat)
  : option (node * entry) :=
  match step bk cbk (n_rt s) e with
  | Some (r, o) => pair_step s e r o f u q ch [] None
  | None => None
  end.

(** Only the socket takes a step. *)
Definition socket_step (s : node) (f : UdpModel.event) : option (node * entry) :=
  match UdpModel.step (n_udp s) f with
  | Some (u, q) => Some (mkN (n_rt s) u (n_chan s) (n_lst s), mkE None (Some (f, q)) None)
  | None => None
  end.

Definition node_step (s : node) (e : nevent) : option (node * entry) :=
  match e with
  | NRun e =>
      if internal e then
        match step bk cbk (n_rt s) e with
        | Some (r, OSpawned c a) =>
            (* v1.rs 404, 511: [connector.connect]; udp.rs 140-151 *)
            match UdpModel.step (n_udp s) (UdpModel.EConnect a) with
            | Some (u, UdpModel.OConnected ch) =>
                pair_step s e r (OSpawned c a) (UdpModel.EConnect a) u (UdpModel.OConnected ch) [ch] [] None
            | _ => None
            end
        | Some (r, o) =>
            if length (r_lsnrs (n_rt s)) <? length (r_lsnrs r) then
              (* v1.rs 465: [connector.listen(8)]; udp.rs 153-161 *)
              match UdpModel.step (n_udp s) (UdpModel.EListen 8) with
              | Some (u, UdpModel.OListening l) =>
                  pair_step s e r o (UdpModel.EListen 8) u (UdpModel.OListening l) [] [l] None
              | _ => None
              end
            else Some (mkN r (n_udp s) (n_chan s) (n_lst s), mkE (Some (e, o)) None None)
        | None => None
        end
      else None
  | NDatagram a d => socket_step s (UdpModel.EPacket a d)
  | NTask => socket_step s UdpModel.ETask
  | NFail => socket_step s UdpModel.EError
  | NRecv c =>
      (* connection.rs 334; udp.rs 197-204 *)
      match nth_error (n_chan s) c with
      | Some ch =>
          let f := UdpModel.ERecv ch in
          match UdpModel.step (n_udp s) f with
          | Some (u, UdpModel.OData p) => answer s (EPacket c (UdpModel.p_data p)) f u (UdpModel.OData p) []
          | Some (u, UdpModel.OLagged k) => answer s (ELagged c) f u (UdpModel.OLagged k) []
          | Some (u, UdpModel.OClosed) => answer s (EEnd c) f u UdpModel.OClosed []
          | _ => None
          end
      | None => None
      end
  | NSend c os =>
      (* connection.rs 419; udp.rs 177-187 *)
      match nth_error (r_conns (n_rt s)) c, nth_error (n_chan s) c with
      | Some x, Some k =>
          match c_out x, nth_error (UdpModel.u_chans (n_udp s)) k with
          | Some bs, Some ch =>
              let (ok, out) := UdpModel.udp_send bs os in
              match step bk cbk (n_rt s) (ESocket c ok) with
              | Some (r, o) =>
                  Some (mkN r (n_udp s) (n_chan s) (n_lst s),
                        mkE (Some (ESocket c ok, o)) None
                            (if ok then option_map (pair (UdpModel.c_addr ch)) out else None))
              | None => None
              end
          | _, _ => None
          end
      | _, _ => None
      end
  | NAccept l =>
      (* listener.rs 186; udp.rs 320-322 *)
      match nth_error (n_lst s) l with
      | Some k =>
          let f := UdpModel.EAccept k in
          match UdpModel.step (n_udp s) f with
          | Some (u, UdpModel.OAccepted ch a) => answer s (EAccept l a) f u (UdpModel.OAccepted ch a) [ch]
          | Some (u, UdpModel.OAcceptEnd) => answer s (EAcceptEnd l) f u UdpModel.OAcceptEnd []
          | _ => None
          end
      | None => None
      end
  | NDropReceiver c =>
      (* connection.rs 285-293: the task has returned; here the drop may come any time later *)
      match nth_error (r_conns (n_rt s)) c, nth_error (n_chan s) c with
      | Some x, Some ch => if c_alive x then None else socket_step s (UdpModel.EDropReceiver ch)
      | _, _ => None
      end
  | NDropListener l =>
      (* listener.rs 141-149 *)
      match nth_error (r_lsnrs (n_rt s)) l, nth_error (n_lst s) l with
      | Some x, Some k => if l_alive x then None else socket_step s (UdpModel.EDropListener k)
      | _, _ => None
      end
  | NDropSocket =>
      (* v1.rs 367-368 returns when every [Endpoint] is dropped and every command was taken *)
      match ep_strong (n_rt s), r_ep (n_rt s), r_left (n_rt s) with
      | false, EpWait, [] => socket_step s UdpModel.EDropSocket
      | _, _, _ => None
      end
  end.

(** A schedule run from a state: for examples. *)
Fixpoint node_run (s : node) (es : list nevent) : option (node * list entry) :=
  match es with
  | [] => Some (s, [])
  | e :: es' =>
      match node_step s e with
      | Some (s', o) => option_map (fun r => (fst r, o :: snd r)) (node_run s' es')
      | None => None
      end
  end.

(** Several endpoints, one for each address.  Not code of the repository: the network it runs on. *)
Definition net := N -> node.
Definition net_init : net := fun _ => node_init.
Definition net_set (a : N) (s : node) (w : net) : net := fun b => if N.eqb b a then s else w b.

(** What the endpoints have handed to the network: source, destination, contents. *)
Fixpoint emitted (tr : list (N * entry)) : list (N * N * list N) :=
  match tr with
  | [] => []
  | (a, x) :: tr' => match e_out x with Some (b, d) => (a, b, d) :: emitted tr' | None => emitted tr' end
  end.

(** Datagrams may be lost, delayed, reordered and duplicated, but not invented: what arrives at [b]
    from [a] was handed to the network by [a], for [b]. *)
Definition net_allows (tr : list (N * entry)) (b : N) (e : nevent) : Prop :=
  match e with NDatagram a d => In (a, b, d) (emitted tr) | _ => True end.

(** A schedule of several endpoints: for examples.  [seen] is what happened before. *)
Definition carried_before (tr : list (N * entry)) (b : N) (e : nevent) : bool :=
  match e with
  | NDatagram a d =>
      existsb (fun x => N.eqb (fst (fst x)) a && N.eqb (snd (fst x)) b && if list_eq_dec N.eq_dec (snd x) d then true else false)
              (emitted tr)
  | _ => true
  end.
Fixpoint net_run (w : net) (seen : list (N * entry)) (es : list (N * nevent)) : option (net * list (N * entry)) :=
  match es with
  | [] => Some (w, seen)
  | (a, e) :: es' =>
      if carried_before seen a e then
        match node_step (w a) e with
        | Some (s, x) => net_run (net_set a s w) (seen ++ [(a, x)]) es'
        | None => None
        end
      else None
  end.

End Locks.
