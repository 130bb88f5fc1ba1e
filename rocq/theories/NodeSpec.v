(** What the claims about an endpoint over UDP, and about several of them on a network, mean. *)
From Coq Require Import List NArith Bool PeanoNat Permutation.
From Verif Require Import BytesModel WireSpec SomeipModel SomeipSpec RuntimeModel RuntimeSpec NodeModel.
From Verif Require UdpModel UdpSpec.
Import ListNotations.
Open Scope nat_scope.

(** A history: everything that happened since the socket was bound and the endpoint created. *)
Inductive nhistory (bk : iid -> N) (cbk : N -> N) : list entry -> node -> Prop :=
| n_start : nhistory bk cbk [] node_init
| n_more tr s e s' x : nhistory bk cbk tr s -> node_step bk cbk s e = Some (s', x) -> nhistory bk cbk (tr ++ [x]) s'.

(** What happened in the runtime, and what happened in the socket. *)
Definition runtime_trace (tr : list entry) : list (event * obs) :=
  flat_map (fun x => match e_rt x with Some p => [p] | None => [] end) tr.
Definition socket_trace (tr : list entry) : list (UdpModel.event * UdpModel.obs) :=
  flat_map (fun x => match e_udp x with Some p => [p] | None => [] end) tr.

(** The datagrams that arrived, with their sources; the messages in them; those from one peer. *)
Definition datagrams (tr : list entry) : list (N * list N) := UdpSpec.arrivals (socket_trace tr).
Definition from_peer {A} (a : N) (ds : list (N * A)) : list A := map snd (filter (fun p => N.eqb (fst p) a) ds).
Definition messages_in (ds : list (N * list N)) : list (N * msg) :=
  flat_map (fun p => map (pair (fst p)) (packet_messages (snd p))) ds.
(** What the stubs and proxies were given, with the addresses they were told. *)
Definition read_by_users (tr : list entry) : list (N * msg) :=
  map (fun it => (it_addr it, it_msg it)) (all_got (runtime_trace tr)).

(** [l] is in [m] with at least the same multiplicities. *)
Definition among {A} (l m : list A) : Prop := exists rest, Permutation (l ++ rest) m.
(** [l] is what remains of [m] after leaving out some elements. *)
Inductive subseq {A} : list A -> list A -> Prop :=
| sub_nil : subseq [] []
| sub_skip x l m : subseq l m -> subseq l (x :: m)
| sub_take x l m : subseq l m -> subseq (x :: l) (x :: m).

(** The datagrams the system took, and the messages whose sending was answered [Ok], with the
    addresses they are for. *)
Definition sent_out (tr : list entry) : list (N * list N) :=
  flat_map (fun x => match e_out x with Some p => [p] | None => [] end) tr.
Fixpoint peer_of (c : nat) (tr : list (event * obs)) : option N :=
  match tr with
  | [] => None
  | (_, OSpawned d a) :: tr' => if d =? c then Some a else peer_of c tr'
  | _ :: tr' => peer_of c tr'
  end.
Definition accepted_for (tr : list entry) : list (N * msg) :=
  flat_map (fun p => match snd p with
                     | OOk c m => match peer_of c (runtime_trace tr) with Some a => [(a, m)] | None => [] end
                     | _ => []
                     end) (runtime_trace tr).

(** Several endpoints on a network. *)
Inductive net_history (bk : iid -> N) (cbk : N -> N) : list (N * entry) -> net -> Prop :=
| w_start : net_history bk cbk [] net_init
| w_more tr w a e s x : net_history bk cbk tr w -> net_allows tr a e -> node_step bk cbk (w a) e = Some (s, x) ->
                        net_history bk cbk (tr ++ [(a, x)]) (net_set a s w).
(** What happened at [a]. *)
Definition at_node (a : N) (tr : list (N * entry)) : list entry :=
  flat_map (fun p => if N.eqb (fst p) a then [snd p] else []) tr.

(** [serve] was never called. *)
Definition never_served (tr : list (event * obs)) : Prop :=
  forall i o, ~ In (EServe i, o) tr /\ ~ In (EAbandon i None, o) tr.
(** The values a message of the program can have. *)
Definition typed (m : msg) : Prop := smessage_ok m /\ bytes_ok (s_payload m).
(** How a message is read that was sent as [m]: a message type or return code given by its number,
    although it has a name, is read as the name. *)
Definition read_back (m : msg) : msg :=
  {| s_service := s_service m; s_method := s_method m; s_client := s_client m; s_session := s_session m;
     s_protocol := s_protocol m; s_interface := s_interface m; s_mtype := st_from_u8 (st_as_u8 (s_mtype m));
     s_rcode := sc_from_u8 (sc_as_u8 (s_rcode m)); s_payload := s_payload m |}.

(** The datagrams [a] has handed to the network for [b], in order.  [unduplicated]: none of them has
    reached [b] more often than it was sent.  [in_sequence]: they have not overtaken each other
    either; some may be lost. *)
Definition carried (a b : N) (tr : list (N * entry)) : list (list N) := from_peer b (sent_out (at_node a tr)).
Definition unduplicated (a b : N) (tr : list (N * entry)) : Prop :=
  among (from_peer a (datagrams (at_node b tr))) (carried a b tr).
Definition in_sequence (a b : N) (tr : list (N * entry)) : Prop :=
  subseq (from_peer a (datagrams (at_node b tr))) (carried a b tr).

(** [rest] are the datagrams from [a] that connection [c] has not read yet: at most one is still in
    the hands of the receiver task; the others are what [c] reads next, oldest first, unless they are
    more than the buffer of [k] holds: then the next read reports that. *)
Definition unread (bk : iid -> N) (cbk : N -> N) (k : nat) (s : node) (c : nat) (a : N) (rest : list (list N)) : Prop :=
  exists buffered pending, rest = buffered ++ pending /\ length pending <= 1 /\
    (UdpSpec.quiet (n_udp s) a -> pending = []) /\
    (waiting (n_rt s) c = [] ->
     match buffered with
     | [] => forall s' x, node_step bk cbk s (NRecv c) = Some (s', x) -> e_rt x = Some (EEnd c, OUnit)
     | d :: _ => exists s' x, node_step bk cbk s (NRecv c) = Some (s', x) /\
                 e_rt x = Some (if k <? length buffered then ELagged c else EPacket c d, OUnit)
     end).

(** Nothing goes wrong in a step: no receive error, nothing dropped, lost or refused, no failed call;
    [x] may be the failing [send] of a proxy. *)
Definition harmless (x : entry) : Prop :=
  e_udp x <> Some (UdpModel.EError, UdpModel.OUnit) /\
  match e_rt x with
  | Some (EDropStub _, _) | Some (EDropProxy _, _) | Some (EClose, _) | Some (ELagged _, _) | Some (ESocket _ false, _) => False
  | Some (EProxySend _ _, _) => True
  | Some (_, OError) => False
  | _ => True
  end.
(** A message for examples: for a service, with one byte. *)
Definition note (service value : N) : msg := mkS service 2 3 4 1 1 StNotification ScOk [value].
