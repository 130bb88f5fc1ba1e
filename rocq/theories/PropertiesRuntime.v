(** Property theorems C46 to C50, C57 to C62 and C71 to C74 and C79: the v1 endpoint runtime.  [bk] and [cbk] say which
    entries of the shared maps share a lock, [dg] whether the transport is datagram based: all
    theorems hold whatever they are. *)
From Coq Require Import Permutation List NArith Bool PeanoNat Lia Sorted.
From Verif Require Import BytesModel WireSpec SomeipModel SomeipSpec MapModel RuntimeModel RuntimeSpec
  RuntimeProofs RuntimeTheorems RuntimePacketTheorems RuntimeSendTheorems RuntimeAddrTheorems RuntimeProgressTheorems
  RuntimeWorkTheorems RuntimeOwnerTheorems RuntimeCallTheorems RuntimeCancelTheorems.
Import ListNotations.
Open Scope nat_scope.

(** A message for service 1, version 1, and one for service 2. *)
Definition ex_m (v : N) : msg := mkS 1 2 3 4 1 1 StNotification ScOk [v].
Definition ex_k (v : N) : msg := mkS 2 2 3 4 1 1 StNotification ScOk [v].
Definition b0 (_ : iid) : N := 0.
Definition c0 (_ : N) : N := 0.
(** Serving an id, connecting a proxy, accepting a connection. *)
Definition ex_serve (id : iid) : list event := [EServe id; EEp true; EEp true; EEp true; EEp true].
Definition ex_proxy (id : iid) (a : N) : list event := [EProxy id a; EEp true; EEp true; EEp true; EEp true].
Definition ex_accept (l : nat) (a : N) : list event := [EAccept l a; EAcceptShare l].
Lemma ex_history es s tr : run b0 c0 (rt_init true) es = Some (s, tr) -> history b0 c0 true tr s.
Proof. intros R. exact (run_history _ _ _ es [] _ (h_start _ _ _) _ _ R). Qed.
Lemma ex_ordinary v : (v < 256)%N -> ordinary (ex_m v) /\ ordinary (ex_k v).
Proof. intros H. repeat split; repeat constructor; assumption. Qed.

(** Proofs about concrete states. *)
Ltac ex_pick n X := repeat (destruct n as [|n]; cbn in X; [try discriminate X; injection X as <-|]; try discriminate X).
Ltac ex_idle := constructor;
  [split; reflexivity
  |let n := fresh in let X := fresh in let P := fresh in intros n (? & X & P); ex_pick n X; exact (P eq_refl)
  |let c := fresh in intros c; do 6 (destruct c as [|c]; [reflexivity|]); reflexivity
  |let n := fresh in let X := fresh in intros n (? & X & _); ex_pick n X; reflexivity
  |let n := fresh in let X := fresh in intros n (? & X & _); ex_pick n X; reflexivity
  |let c := fresh in let X := fresh in intros c ? X; ex_pick c X; split; reflexivity
  |let c := fresh in let X := fresh in intros c ? X; ex_pick c X; split; reflexivity].
Ltac ex_unused := let c := fresh in let K := fresh in let X := fresh in let R := fresh in
  intros [(? & (? & K) & _)|[(? & ? & (? & K) & _)|(c & ? & ? & ? & ? & X & R & _)]];
  [cbn in K; repeat (destruct K as [K|K]; [discriminate K|]); exact K|cbn in K; repeat (destruct K as [K|K]; [discriminate K|]); exact K
  |ex_pick c X; discriminate R].

(** C46.  What a stub or a proxy is given names its service and version, is a message that was in a
    packet received on some connection, and comes with the address of that connection. *)
Theorem C46_stub_routing : forall bk cbk dg tr s n id it,
  history bk cbk dg tr s -> served n id tr -> In (ERecvFrom n, OMsg it) tr ->
  id_of (it_msg it) = id /\
  nth_error (decoded (it_conn it) tr) (it_no it) = Some (it_msg it) /\
  opened (it_conn it) (it_addr it) tr.
Proof. exact @stub_routing. Qed.
Print Assumptions C46_stub_routing.
Theorem C46_proxy_routing : forall bk cbk dg tr s n id a it,
  history bk cbk dg tr s -> proxied n id a tr -> In (EProxyRecv n, OMsg it) tr ->
  id_of (it_msg it) = id /\ it_addr it = a /\
  nth_error (decoded (it_conn it) tr) (it_no it) = Some (it_msg it) /\
  opened (it_conn it) a tr.
Proof. exact @proxy_routing. Qed.
Print Assumptions C46_proxy_routing.
Theorem C46_receiver_created : forall bk cbk dg tr s n it,
  history bk cbk dg tr s ->
  (In (ERecvFrom n, OMsg it) tr -> exists id, served n id tr) /\
  (In (EProxyRecv n, OMsg it) tr -> exists id a, proxied n id a tr).
Proof. exact @receiver_created. Qed.
Print Assumptions C46_receiver_created.
(** Two services, one connection, messages for both and for nobody. *)
Definition ex_both : list event :=
  ex_serve (1%N, 1%N) ++ ex_serve (2%N, 1%N) ++ ex_accept 0 5%N ++
  [EPacket 0 (s_form (ex_m 7) ++ s_form (ex_k 8) ++ s_form (mkS 9 2 3 4 1 1 StNotification ScOk []) ++ s_form (ex_m 9));
   ERoute 0; ERoute 0; ERoute 0; ERoute 0; ERoute 0; ERoute 0; ERoute 0; ERecvFrom 0; ERecvFrom 0; ERecvFrom 1; ERecvFrom 1].
Example C46_example : exists s tr, run b0 c0 (rt_init true) ex_both = Some (s, tr) /\ history b0 c0 true tr s /\
  served 0 (1%N, 1%N) tr /\ In (ERecvFrom 0, OMsg (mkItem 0 3 (ex_m 9) 5%N)) tr /\
  stub_got 0 tr = [mkItem 0 0 (ex_m 7) 5%N; mkItem 0 3 (ex_m 9) 5%N] /\ stub_got 1 tr = [mkItem 0 1 (ex_k 8) 5%N] /\
  last tr (EClose, OUnit) = (ERecvFrom 1, OPending).
Proof.
  eexists. eexists. split; [vm_compute; reflexivity|]. split; [apply (ex_history ex_both); vm_compute; reflexivity|].
  split; [exists (EEp true); cbn; tauto|]. split; [cbn; tauto|]. repeat split.
Qed.
(** A proxy skips what comes from another address. *)
Definition ex_skip : list event :=
  ex_proxy (1%N, 1%N) 5%N ++ [ESender 0] ++ ex_serve (2%N, 1%N) ++ ex_accept 0 6%N ++
  [EPacket 1 (s_form (ex_m 7)); ERoute 1; ERoute 1; EPacket 0 (s_form (ex_m 8)); ERoute 0; ERoute 0; EProxyRecv 0; EProxyRecv 0].
Example C46_example_proxy : exists s tr, run b0 c0 (rt_init true) ex_skip = Some (s, tr) /\ history b0 c0 true tr s /\
  proxied 0 (1%N, 1%N) 5%N tr /\ proxy_got 0 tr = [mkItem 0 0 (ex_m 8) 5%N].
Proof.
  eexists. eexists. split; [vm_compute; reflexivity|]. split; [apply (ex_history ex_skip); vm_compute; reflexivity|].
  split; [exists (EEp true); cbn; tauto|]. reflexivity.
Qed.

(** C47.  In order, at most once, at most 16 queued, and complete: while the stub (proxy) and its
    listener (connection) and connection [c] last, what [c] decodes for its id is exactly what is
    handed over, except what still waits in [c]. *)
Theorem C47_in_order : forall bk cbk dg tr s n c,
  history bk cbk dg tr s ->
  StronglySorted lt (map it_no (from_conn c (stub_got n tr))) /\
  StronglySorted lt (map it_no (from_conn c (proxy_got n tr))).
Proof. exact @in_order. Qed.
Print Assumptions C47_in_order.
Theorem C47_at_most_once : forall bk cbk dg tr s,
  history bk cbk dg tr s -> NoDup (map which (all_got tr)).
Proof. exact @at_most_once. Qed.
Print Assumptions C47_at_most_once.
Theorem C47_backlog_bounded : forall bk cbk dg tr s n,
  history bk cbk dg tr s -> length (stub_backlog s n) <= 16 /\ length (proxy_backlog s n) <= 16.
Proof. exact @backlog_bounded. Qed.
Print Assumptions C47_backlog_bounded.
Theorem C47_nothing_lost_stub : forall bk cbk dg tr1 s1 tr2 s2 n id c,
  history bk cbk dg tr1 s1 -> served n id tr1 -> steps bk cbk s1 tr2 s2 ->
  stub_exists s2 n -> stub_listening s2 n -> conn_runs s2 c ->
  exists more,
    stub_got n (tr1 ++ tr2) ++ stub_backlog s2 n = (stub_got n tr1 ++ stub_backlog s1 n) ++ more /\
    map it_msg (from_conn c more) ++ map it_msg (for_id id (waiting s2 c)) =
    map it_msg (for_id id (waiting s1 c)) ++ filter (of_id id) (decoded c tr2).
Proof. exact @nothing_lost_stub. Qed.
Print Assumptions C47_nothing_lost_stub.
Theorem C47_nothing_lost_proxy : forall bk cbk dg tr1 s1 tr2 s2 n id a c,
  history bk cbk dg tr1 s1 -> proxied n id a tr1 -> opened c a (tr1 ++ tr2) -> steps bk cbk s1 tr2 s2 ->
  proxy_exists s2 n -> proxy_connected s2 n -> conn_runs s2 c ->
  exists more,
    from_conn c (proxy_got n (tr1 ++ tr2) ++ proxy_backlog s2 n) = from_conn c (proxy_got n tr1 ++ proxy_backlog s1 n) ++ more /\
    map it_msg more ++ map it_msg (for_id id (waiting s2 c)) =
    map it_msg (for_id id (waiting s1 c)) ++ filter (of_id id) (decoded c tr2).
Proof. exact @nothing_lost_proxy. Qed.
Print Assumptions C47_nothing_lost_proxy.
Example C47_example : exists s tr, run b0 c0 (rt_init true) ex_both = Some (s, tr) /\
  from_conn 0 (stub_got 0 tr) = [mkItem 0 0 (ex_m 7) 5%N; mkItem 0 3 (ex_m 9) 5%N] /\
  filter (of_id (1%N, 1%N)) (decoded 0 tr) = [ex_m 7; ex_m 9] /\
  stub_exists s 0 /\ stub_listening s 0 /\ conn_runs s 0.
Proof.
  eexists. eexists. split; [vm_compute; reflexivity|]. split; [reflexivity|]. split; [reflexivity|].
  split; [eexists; split; reflexivity|]. split; [eexists; eexists; repeat split|eexists; split; reflexivity].
Qed.
Definition ex_fill : list event :=
  ex_serve (1%N, 1%N) ++ ex_accept 0 5%N ++ concat (repeat [EPacket 0 (s_form (ex_m 7)); ERoute 0; ERoute 0] 16) ++
  [EPacket 0 (s_form (ex_m 8)); ERoute 0].
Example C47_example_full : exists s tr, run b0 c0 (rt_init true) ex_fill = Some (s, tr) /\ history b0 c0 true tr s /\
  length (stub_backlog s 0) = 16 /\ step b0 c0 s (ERoute 0) = None.
Proof.
  eexists. eexists. split; [vm_compute; reflexivity|]. split; [apply (ex_history ex_fill); vm_compute; reflexivity|]. split; reflexivity.
Qed.

(** C48.  While an id is in use the calls for it fail and change nothing; after the stub (proxy) is
    gone they go on failing while its listener (connection) runs, until a message for the id was
    dropped, after which the id is free.  An id never has two users. *)
Theorem C48_call_refused : forall bk cbk dg tr s id e ok s' tr',
  history bk cbk dg tr s -> in_use s tr id -> e = EServe id \/ (exists a, e = EProxy id a) ->
  run bk cbk s [e; EEp ok] = Some (s', tr') -> s' = s /\ tr' = [(e, OUnit); (EEp ok, OExists)].
Proof. exact @call_refused. Qed.
Print Assumptions C48_call_refused.
Theorem C48_check_refuses : forall bk cbk dg tr s id k ok s' o,
  history bk cbk dg tr s -> in_use s tr id -> r_ep s = EpCheck id k ->
  step bk cbk s (EEp ok) = Some (s', o) -> o = OExists /\ s' = set_ep EpWait s.
Proof. exact @refused. Qed.
Print Assumptions C48_check_refuses.
Theorem C48_still_refused_stub : forall bk cbk dg tr1 s1 tr2 s2 n id k ok s3 o,
  history bk cbk dg tr1 s1 -> stub_user s1 tr1 id n -> steps bk cbk s1 tr2 s2 ->
  stub_listening s2 n -> (forall e it, In (e, ODropped it) tr2 -> id_of (it_msg it) <> id) ->
  r_ep s2 = EpCheck id k -> step bk cbk s2 (EEp ok) = Some (s3, o) -> o = OExists /\ s3 = set_ep EpWait s2.
Proof. exact @still_refused_stub. Qed.
Print Assumptions C48_still_refused_stub.
Theorem C48_still_refused_proxy : forall bk cbk dg tr1 s1 tr2 s2 n id k ok s3 o,
  history bk cbk dg tr1 s1 -> proxy_user s1 tr1 id n -> steps bk cbk s1 tr2 s2 ->
  proxy_connected s2 n -> (forall e it, In (e, ODropped it) tr2 -> id_of (it_msg it) <> id) ->
  r_ep s2 = EpCheck id k -> step bk cbk s2 (EEp ok) = Some (s3, o) -> o = OExists /\ s3 = set_ep EpWait s2.
Proof. exact @still_refused_proxy. Qed.
Print Assumptions C48_still_refused_proxy.
Theorem C48_freed : forall bk cbk dg tr s c it s1 k ok s2 o,
  history bk cbk dg tr s -> step bk cbk s (ERoute c) = Some (s1, ODropped it) ->
  step bk cbk (set_ep (EpCheck (id_of (it_msg it)) k) s1) (EEp ok) = Some (s2, o) ->
  o = OUnit /\ s2 = set_ep (EpReady (id_of (it_msg it)) k) s1.
Proof. exact @freed. Qed.
Print Assumptions C48_freed.
Theorem C48_one_user : forall bk cbk dg tr s id,
  history bk cbk dg tr s ->
  (forall n m, stub_user s tr id n -> stub_user s tr id m -> n = m) /\
  (forall n m, proxy_user s tr id n -> proxy_user s tr id m -> n = m) /\
  (forall n m, stub_user s tr id n -> proxy_user s tr id m -> False).
Proof. exact @one_user. Qed.
Print Assumptions C48_one_user.
Definition ex_again : list event :=
  ex_serve (1%N, 1%N) ++ ex_serve (2%N, 1%N) ++ [EListener 0; EListener 0; EServe (1%N, 1%N); EEp true; EProxy (1%N, 1%N) 5%N; EEp true;
   EDropStub 0; EServe (1%N, 1%N); EEp true] ++ ex_accept 0 5%N ++
  [EPacket 0 (s_form (ex_m 7)); ERoute 0; ERoute 0] ++ ex_serve (1%N, 1%N).
Example C48_example : exists s tr, run b0 c0 (rt_init true) ex_again = Some (s, tr) /\ history b0 c0 true tr s /\
  map snd (skipn 12 tr) = [OUnit; OExists; OUnit; OExists; OUnit; OUnit; OExists; OSpawned 0 5%N; OUnit; OUnit;
                           OHeld (mkItem 0 0 (ex_m 7) 5%N); ODropped (mkItem 0 0 (ex_m 7) 5%N); OUnit; OUnit; OUnit; OUnit; OStub 2 (1%N, 1%N)].
Proof.
  eexists. eexists. split; [vm_compute; reflexivity|]. split; [apply (ex_history ex_again); vm_compute; reflexivity|]. reflexivity.
Qed.
Example C48_example_in_use : exists s tr, run b0 c0 (rt_init true) (ex_serve (1%N, 1%N)) = Some (s, tr) /\ in_use s tr (1%N, 1%N) /\
  run b0 c0 s [EServe (1%N, 1%N); EEp true] = Some (s, [(EServe (1%N, 1%N), OUnit); (EEp true, OExists)]).
Proof.
  eexists. eexists. split; [vm_compute; reflexivity|]. split; [|reflexivity]. left. exists 0.
  split; [exists (EEp true); cbn; tauto|]. split; [eexists; split; reflexivity|eexists; eexists; repeat split].
Qed.

(** C49.  A packet is read exactly if it consists of whole messages, of which the last may claim to
    be longer than it is; otherwise nothing in it is delivered, and the connection is as before. *)
Theorem C49_packet_read : forall bs ms,
  (bytes_ok bs -> decode bs = Some ms <-> packet bs ms)%N.
Proof. exact @packet_read. Qed.
Print Assumptions C49_packet_read.
Theorem C49_packet_all : forall ms,
  (Forall ordinary ms -> decode (concat (map s_form ms)) = Some ms)%N.
Proof. exact @packet_all. Qed.
Print Assumptions C49_packet_all.
Theorem C49_packet_spoiled : forall ms tail,
  (Forall ordinary ms -> bytes_ok tail -> tail <> [] ->
  len tail < 16 \/ (exists s me L rest, L < 8 /\ tail = be 2 s ++ be 2 me ++ be 4 L ++ rest) ->
  decode (concat (map s_form ms) ++ tail) = None)%N.
Proof. exact @packet_spoiled. Qed.
Print Assumptions C49_packet_spoiled.
Theorem C49_spoiled_packet : forall bk cbk s c ms tail,
  conn_runs s c -> waiting s c = [] -> Forall ordinary ms -> bytes_ok tail -> tail <> [] ->
  (len tail < 16 \/ (exists sv me L rest, L < 8 /\ tail = be 2 sv ++ be 2 me ++ be 4 L ++ rest))%N ->
  step bk cbk s (EPacket c (concat (map s_form ms) ++ tail)) = Some (s, OUnit).
Proof. exact @spoiled_packet. Qed.
Print Assumptions C49_spoiled_packet.
Theorem C49_malformed_dropped : forall bk cbk s c bs,
  conn_runs s c -> waiting s c = [] -> decode bs = None -> step bk cbk s (EPacket c bs) = Some (s, OUnit).
Proof. exact @malformed_dropped. Qed.
Print Assumptions C49_malformed_dropped.
Theorem C49_good_packet : forall bk cbk s c ms,
  conn_runs s c -> waiting s c = [] -> Forall ordinary ms ->
  exists s', step bk cbk s (EPacket c (concat (map s_form ms))) = Some (s', OUnit) /\ conn_runs s' c /\ map it_msg (waiting s' c) = ms.
Proof. exact @good_packet. Qed.
Print Assumptions C49_good_packet.
Example C49_example :
  decode (s_form (ex_m 7) ++ s_form (ex_k 8)) = Some [ex_m 7; ex_k 8] /\
  decode (s_form (ex_m 7) ++ s_form (ex_k 8) ++ [0%N]) = None /\
  decode (s_form (ex_m 7) ++ claiming 7 (ex_k 8)) = None /\
  decode (s_form (ex_m 7) ++ claiming 99 (ex_k 8)) = Some [ex_m 7; ex_k 8].
Proof. repeat split. Qed.
Example C49_example_state : exists s tr, run b0 c0 (rt_init true) (ex_serve (1%N, 1%N) ++ ex_accept 0 5%N) = Some (s, tr) /\
  conn_runs s 0 /\ waiting s 0 = [] /\ Forall ordinary [ex_m 7; ex_k 8].
Proof.
  eexists. eexists. split; [vm_compute; reflexivity|]. split; [eexists; split; reflexivity|]. split; [reflexivity|].
  constructor; [apply ex_ordinary; reflexivity|]. constructor; [apply ex_ordinary; reflexivity|constructor].
Qed.

(** C50.  After the socket refused a message the connection has ended: it neither accepts, sends nor
    receives anything any more, sending through its proxies is an error, and they are told it is
    closed.  UDP refuses payloads over 1384 bytes.  A message too long for its length field is
    handed to the socket as the four bytes of its id. *)
Theorem C50_after_refusal : forall bk cbk dg tr1 c bs tr2 s,
  history bk cbk dg (tr1 ++ (ESocket c false, ORefused bs) :: tr2) s ->
  ~ conn_runs s c /\ accepted c tr2 = [] /\ sent c tr2 = [] /\ (forall b o, ~ In (EPacket c b, o) tr2).
Proof. exact @after_refusal. Qed.
Print Assumptions C50_after_refusal.
Theorem C50_send_not_connected : forall bk cbk dg tr s n m,
  history bk cbk dg tr s -> proxy_exists s n -> ~ proxy_connected s n ->
  step bk cbk s (EProxySend n m) = Some (s, OError).
Proof. exact @send_not_connected. Qed.
Print Assumptions C50_send_not_connected.
Theorem C50_proxy_closed : forall bk cbk dg tr s n id a,
  history bk cbk dg tr s -> proxied n id a tr -> proxy_exists s n -> ~ proxy_connected s n ->
  proxy_backlog s n = [] -> ~ handing_over s id -> step bk cbk s (EProxyRecv n) = Some (s, OClosed).
Proof. exact @proxy_closed. Qed.
Print Assumptions C50_proxy_closed.
Theorem C50_stub_closed : forall bk cbk dg tr s n t id,
  history bk cbk dg tr s -> served n id tr -> nth_error (r_stubs s) n = Some t -> st_alive t = true -> st_pc t = SFree ->
  ~ stub_listening s n -> stub_backlog s n = [] -> ~ handing_over s id -> step bk cbk s (ERecvFrom n) = Some (s, OClosed).
Proof. exact @stub_closed. Qed.
Print Assumptions C50_stub_closed.
Theorem C50_udp_limit : forall m os,
  (ordinary m ->
  UdpModel.udp_send (encode m) os = if len (s_payload m) <=? 1384 then (os, Some (s_form m)) else (false, None))%N.
Proof. exact @udp_limit. Qed.
Print Assumptions C50_udp_limit.
Theorem C50_encode_form : forall m,
  (ordinary m -> encode m = s_form m)%N.
Proof. exact @encode_form. Qed.
Print Assumptions C50_encode_form.
Theorem C50_encode_too_long : forall m,
  (s_method m < 2 ^ 16 -> 2 ^ 32 <= 8 + len (s_payload m) -> encode m = be 2 (s_service m) ++ be 2 (s_method m))%N.
Proof. exact @encode_too_long. Qed.
Print Assumptions C50_encode_too_long.
Definition ex_refuse : list event :=
  ex_proxy (1%N, 1%N) 5%N ++ [ESender 0; EProxySend 0 (ex_m 7); ESender 0; ESocket 0 false; EProxySend 0 (ex_m 8); EProxyRecv 0].
Example C50_example : exists s tr, run b0 c0 (rt_init true) ex_refuse = Some (s, tr) /\ history b0 c0 true tr s /\
  proxied 0 (1%N, 1%N) 5%N tr /\ proxy_exists s 0 /\ ~ proxy_connected s 0 /\ proxy_backlog s 0 = [] /\ ~ handing_over s (1%N, 1%N) /\
  map snd (skipn 6 tr) = [OOk 0 (ex_m 7); OUnit; ORefused (s_form (ex_m 7)); OError; OClosed].
Proof.
  eexists. eexists. split; [vm_compute; reflexivity|]. split; [apply (ex_history ex_refuse); vm_compute; reflexivity|].
  split; [exists (EEp true); cbn; tauto|]. split; [eexists; split; reflexivity|].
  split; [intros (p & P & x & X & A); cbn in P; injection P as <-; cbn in X; injection X as <-; discriminate A|].
  split; [reflexivity|]. split; [|reflexivity]. intros ([|[|c]] & x & i & it & todo & X & R & _); cbn in X; [injection X as <-; discriminate R|discriminate X|discriminate X].
Qed.

(** C57.  What a connection hands to its socket is what was accepted for it, in the order it was
    accepted, each once; at most two accepted messages are lost, and none if the connection ends
    because nobody owns it.  A connection ends only for these reasons. *)
Theorem C57_fifo_sends : forall bk cbk dg tr s c,
  history bk cbk dg tr s ->
  exists lost, map encode (accepted c tr) = sent c tr ++ rejected c tr ++ lost /\ length (rejected c tr ++ lost) <= 2 /\
  (conn_runs s c -> rejected c tr = []).
Proof. exact @fifo_sends. Qed.
Print Assumptions C57_fifo_sends.
Theorem C57_why_ended : forall bk cbk dg tr s c a,
  history bk cbk dg tr s -> opened c a tr -> ~ conn_runs s c ->
  In (EEnd c, OUnit) tr \/ (exists bs, In (ESocket c false, ORefused bs) tr) \/
  (In (EUnowned c, OUnit) tr /\ sent c tr = map encode (accepted c tr)).
Proof. exact @why_ended. Qed.
Print Assumptions C57_why_ended.
Definition ex_sends : list event :=
  ex_proxy (1%N, 1%N) 5%N ++ [ESender 0; EProxySend 0 (ex_m 7); ESender 0; EProxySend 0 (ex_m 8); ESocket 0 true; ESender 0; EProxySend 0 (ex_m 9); ESocket 0 false].
Example C57_example : exists s tr, run b0 c0 (rt_init true) ex_sends = Some (s, tr) /\ history b0 c0 true tr s /\
  accepted 0 tr = [ex_m 7; ex_m 8; ex_m 9] /\ sent 0 tr = [s_form (ex_m 7)] /\ rejected 0 tr = [s_form (ex_m 8)] /\ ~ conn_runs s 0.
Proof.
  eexists. eexists. split; [vm_compute; reflexivity|]. split; [apply (ex_history ex_sends); vm_compute; reflexivity|].
  repeat split. intros (x & X & A). cbn in X. injection X as <-. discriminate A.
Qed.

(** C58.  A message accepted from [send_to] goes to a connection opened to (or accepted from) the
    address given in that call, one accepted from a proxy to a connection of its remote; nothing
    else is sent, and a connection has one address. *)
Theorem C58_stub_sends : forall bk cbk dg tr n ok c m s,
  history bk cbk dg (tr ++ [(EStub n ok, OOk c m)]) s ->
  exists a, last_send_to n tr = Some (a, m) /\ opened c a tr.
Proof. exact @stub_sends. Qed.
Print Assumptions C58_stub_sends.
Theorem C58_proxy_sends : forall bk cbk dg tr n m0 c m s,
  history bk cbk dg (tr ++ [(EProxySend n m0, OOk c m)]) s ->
  m0 = m /\ exists id a, proxied n id a tr /\ opened c a tr.
Proof. exact @proxy_sends. Qed.
Print Assumptions C58_proxy_sends.
Theorem C58_only_sends : forall bk cbk dg tr e c m s,
  history bk cbk dg (tr ++ [(e, OOk c m)]) s -> (exists n ok, e = EStub n ok) \/ (exists n, e = EProxySend n m).
Proof. exact @only_sends. Qed.
Print Assumptions C58_only_sends.
Theorem C58_one_address : forall bk cbk dg tr s c a b,
  history bk cbk dg tr s -> opened c a tr -> opened c b tr -> a = b.
Proof. exact @one_address. Qed.
Print Assumptions C58_one_address.
Definition ex_reply : list event :=
  ex_serve (1%N, 1%N) ++ ex_accept 0 5%N ++ [ESendTo 0 5%N (ex_m 7); EStub 0 true; EStub 0 true; EStub 0 true;
   ESendTo 0 6%N (ex_m 8); EStub 0 true; EStub 0 true; EStub 0 true; EStub 0 true; EStub 0 true].
Example C58_example : exists s tr, run b0 c0 (rt_init true) ex_reply = Some (s, tr) /\ history b0 c0 true tr s /\
  opened 0 5%N tr /\ opened 1 6%N tr /\ accepted 0 tr = [ex_m 7] /\ accepted 1 tr = [ex_m 8].
Proof.
  eexists. eexists. split; [vm_compute; reflexivity|]. split; [apply (ex_history ex_reply); vm_compute; reflexivity|].
  split; [exists (EAccept 0 5%N); cbn; tauto|]. split; [exists (EStub 0 true); cbn; tauto|]. split; reflexivity.
Qed.

(** C59.  A connection whose next message is for a stub (proxy) with 16 unread messages receives and
    routes nothing until that stub (proxy) reads or is dropped.  Meanwhile no other connection
    routes a message for that id or one sharing its lock, and no interface with such an id is
    created. *)
Theorem C59_head_of_line_stub : forall bk cbk dg tr s c n tr' s',
  history bk cbk dg tr s -> stalled_stub s c n -> steps bk cbk s tr' s' ->
  (forall o, ~ In (ERecvFrom n, o) tr') -> (forall o, ~ In (EDropStub n, o) tr') -> conn_runs s' c ->
  stalled_stub s' c n /\ waiting s' c = waiting s c /\ (forall o, ~ In (ERoute c, o) tr') /\ (forall bs o, ~ In (EPacket c bs, o) tr').
Proof. exact @head_of_line_stub. Qed.
Print Assumptions C59_head_of_line_stub.
Theorem C59_head_of_line_proxy : forall bk cbk dg tr s c n tr' s',
  history bk cbk dg tr s -> stalled_proxy s c n -> steps bk cbk s tr' s' ->
  (forall o, ~ In (EProxyRecv n, o) tr') -> (forall o, ~ In (EDropProxy n, o) tr') -> conn_runs s' c ->
  stalled_proxy s' c n /\ waiting s' c = waiting s c /\ (forall o, ~ In (ERoute c, o) tr') /\ (forall bs o, ~ In (EPacket c bs, o) tr').
Proof. exact @head_of_line_proxy. Qed.
Print Assumptions C59_head_of_line_proxy.
Theorem C59_stalled_blocks : forall bk cbk dg tr s c n id id',
  history bk cbk dg tr s -> served n id tr -> stalled_stub s c n -> bk id' = bk id ->
  (creating s id' -> forall ok, step bk cbk s (EEp ok) = None) /\
  (forall d it rest, waiting s d = it :: rest -> id_of (it_msg it) = id' -> step bk cbk s (ERoute d) = None).
Proof. exact @stalled_blocks. Qed.
Print Assumptions C59_stalled_blocks.
Theorem C59_stalled_proxy_blocks : forall bk cbk dg tr s c n id a id',
  history bk cbk dg tr s -> proxied n id a tr -> stalled_proxy s c n -> bk id' = bk id ->
  (creating s id' -> forall ok, step bk cbk s (EEp ok) = None) /\
  (forall d it rest, waiting s d = it :: rest -> id_of (it_msg it) = id' -> step bk cbk s (ERoute d) = None).
Proof. exact @stalled_proxy_blocks. Qed.
Print Assumptions C59_stalled_proxy_blocks.
Definition ex_blocked : list event := ex_fill ++ ex_accept 0 6%N ++ [EPacket 1 (s_form (ex_k 8)); EServe (2%N, 1%N)].
Example C59_example : exists s tr, run b0 c0 (rt_init true) ex_blocked = Some (s, tr) /\
  history b0 c0 true tr s /\ served 0 (1%N, 1%N) tr /\ stalled_stub s 0 0 /\ waiting s 1 = [mkItem 1 0 (ex_k 8) 6%N] /\ creating s (2%N, 1%N).
Proof.
  eexists. eexists. split; [vm_compute; reflexivity|]. split; [apply (ex_history ex_blocked); vm_compute; reflexivity|].
  split; [exists (EEp true); cbn; tauto|]. split; [|split; [reflexivity|left; eexists; reflexivity]].
  do 4 eexists. split; [reflexivity|]. split; [reflexivity|]. split; [reflexivity|]. split; [reflexivity|].
  split; [eexists; split; reflexivity|reflexivity].
Qed.
Definition ex_pfill : list event :=
  ex_proxy (1%N, 1%N) 5%N ++ [ESender 0] ++ concat (repeat [EPacket 0 (s_form (ex_m 7)); ERoute 0; ERoute 0] 16) ++
  [EPacket 0 (s_form (ex_m 8)); ERoute 0].
Definition ex_pblocked : list event := ex_pfill ++ [EServe (2%N, 1%N)].
Example C59_example_proxy : exists s tr, run b0 c0 (rt_init true) ex_pblocked = Some (s, tr) /\ history b0 c0 true tr s /\
  proxied 0 (1%N, 1%N) 5%N tr /\ stalled_proxy s 0 0 /\ creating s (2%N, 1%N).
Proof.
  eexists. eexists. split; [vm_compute; reflexivity|]. split; [apply (ex_history ex_pblocked); vm_compute; reflexivity|].
  split; [exists (EEp true); cbn; tauto|]. split; [|left; eexists; reflexivity].
  do 4 eexists. split; [reflexivity|]. split; [reflexivity|]. split; [reflexivity|]. split; [reflexivity|].
  split; [eexists; split; reflexivity|reflexivity].
Qed.

(** C60.  There is a deadlock: a stub with 16 unread messages that calls [send_to] for an address it
    is not connected to, a connection with another message for it, and a call of [serve] or [proxy]
    for an id with the same lock.  None of the three goes on, and the endpoint answers no other
    call, as long as the stub and its [send_to] are not dropped and the connection lasts.  It can be reached whatever
    the locks. *)
Theorem C60_deadlock : forall bk cbk dg tr s c n tr' s',
  history bk cbk dg tr s -> jammed bk tr s c n -> steps bk cbk s tr' s' -> (forall o, ~ In (EDropStub n, o) tr') -> (forall b o, ~ In (ECancel n b, o) tr') -> conn_runs s' c ->
  jammed bk (tr ++ tr') s' c n /\ r_ep s' = r_ep s /\
  (forall e o, In (e, o) tr' -> match e with EStub m _ | ERecvFrom m => m <> n | EServe _ | EProxy _ _ | EEp _ | ETake _ _ => False | _ => True end).
Proof. exact @deadlock. Qed.
Print Assumptions C60_deadlock.
Definition ex_jam : list event := ex_fill ++ [EServe (1%N, 1%N); ESendTo 0 6%N (ex_m 9); EStub 0 true].
Theorem C60_reachable : forall bk cbk dg, exists s tr, run bk cbk (rt_init dg) ex_jam = Some (s, tr) /\
  history bk cbk dg tr s /\ jammed bk tr s 0 0.
Proof.
  intros bk cbk dg. eexists. eexists. split; [vm_compute; reflexivity|].
  split; [eapply (run_history bk cbk dg ex_jam [] _ (h_start _ _ _)); vm_compute; reflexivity|].
  exists (1%N, 1%N), (1%N, 1%N). split; [exists (EEp true); cbn; tauto|]. split.
  - do 4 eexists. split; [reflexivity|]. split; [reflexivity|]. split; [reflexivity|]. split; [reflexivity|].
    split; [eexists; split; reflexivity|reflexivity].
  - split; [do 3 eexists; split; reflexivity|]. split; [left; eexists; reflexivity|reflexivity].
Qed.
Print Assumptions C60_reachable.

(** C61.  There is no busy loop: the number of things an endpoint does is bounded by the calls made
    and the packets and connections received.  If its users go on reading and its sockets go on
    taking packets it comes to rest. *)
Theorem C61_no_busy_loop : forall bk cbk dg tr s,
  history bk cbk dg tr s -> worked tr <= 1 + brought tr.
Proof. exact @no_busy_loop. Qed.
Print Assumptions C61_no_busy_loop.
Theorem C61_comes_to_rest : forall bk cbk dg tr s,
  history bk cbk dg tr s -> exists tr' s', steps bk cbk s tr' s' /\ Forall (fun p => cooperative (fst p)) tr' /\
  (idle s' \/ exists c n, jammed bk (tr ++ tr') s' c n).
Proof. exact @comes_to_rest. Qed.
Print Assumptions C61_comes_to_rest.
Example C61_example : exists s tr, run b0 c0 (rt_init true) ex_both = Some (s, tr) /\ worked tr = 19 /\ brought tr = 30.
Proof. eexists. eexists. split; [vm_compute; reflexivity|]. split; reflexivity. Qed.

(** C62.  At rest every call has returned, every message that arrived for a stub or proxy has been
    read by it, and every message accepted for sending was handed to the socket, except in the
    deadlock of C60. *)
Theorem C62_at_rest : forall bk cbk dg tr s,
  history bk cbk dg tr s ->
  (forall e s' o, cooperative e -> step bk cbk s e = Some (s', o) -> o = OPending \/ o = OClosed) ->
  idle s \/ exists c n, jammed bk tr s c n.
Proof. exact @at_rest. Qed.
Print Assumptions C62_at_rest.
Theorem C62_delivered_stub : forall bk cbk dg tr1 s1 tr2 s2 n id c,
  history bk cbk dg tr1 s1 -> served n id tr1 -> steps bk cbk s1 tr2 s2 -> idle s2 ->
  stub_exists s2 n -> stub_listening s2 n -> conn_runs s2 c ->
  exists more, stub_got n (tr1 ++ tr2) = (stub_got n tr1 ++ stub_backlog s1 n) ++ more /\
    map it_msg (from_conn c more) = map it_msg (for_id id (waiting s1 c)) ++ filter (of_id id) (decoded c tr2).
Proof. exact @delivered_stub. Qed.
Print Assumptions C62_delivered_stub.
Theorem C62_delivered_proxy : forall bk cbk dg tr1 s1 tr2 s2 n id a c,
  history bk cbk dg tr1 s1 -> proxied n id a tr1 -> opened c a (tr1 ++ tr2) -> steps bk cbk s1 tr2 s2 -> idle s2 ->
  proxy_exists s2 n -> proxy_connected s2 n -> conn_runs s2 c ->
  exists more, from_conn c (proxy_got n (tr1 ++ tr2)) = from_conn c (proxy_got n tr1 ++ proxy_backlog s1 n) ++ more /\
    map it_msg more = map it_msg (for_id id (waiting s1 c)) ++ filter (of_id id) (decoded c tr2).
Proof. exact @delivered_proxy. Qed.
Print Assumptions C62_delivered_proxy.
Theorem C62_sent_all : forall bk cbk dg tr s c,
  history bk cbk dg tr s -> idle s -> conn_runs s c -> sent c tr = map encode (accepted c tr).
Proof. exact @sent_all. Qed.
Print Assumptions C62_sent_all.
Definition ex_rest : list event := ex_both ++ [EListener 0; EListener 0; ESendTo 0 5%N (ex_m 7); EStub 0 true; EStub 0 true; EStub 0 true; ESender 0; ESocket 0 true].
Example C62_example : exists s tr, run b0 c0 (rt_init true) ex_rest = Some (s, tr) /\ history b0 c0 true tr s /\ idle s /\
  stub_exists s 0 /\ stub_listening s 0 /\ conn_runs s 0 /\ sent 0 tr = [s_form (ex_m 7)].
Proof.
  eexists. eexists. split; [vm_compute; reflexivity|]. split; [apply (ex_history ex_rest); vm_compute; reflexivity|].
  split; [|split; [eexists; split; reflexivity|]; split; [eexists; eexists; repeat split|]; split; [eexists; split; reflexivity|reflexivity]].
  constructor.
  - split; reflexivity.
  - intros [|[|[|n]]] (t & X & P); cbn in X; try discriminate X; injection X as <-; exact (P eq_refl).
  - intros [|[|c]]; reflexivity.
  - intros [|[|[|n]]] (t & X & P); cbn in X; try discriminate X; reflexivity.
  - intros [|n] (t & X & P); discriminate X.
  - intros [|[|c]] x X; cbn in X; try discriminate X. injection X as <-. split; reflexivity.
  - intros [|[|c]] x X; cbn in X; try discriminate X. injection X as <-. split; reflexivity.
Qed.

(** C71.  Handles keep things alive: the connection of an existing proxy, the last connection an
    existing stub opened to an address and the last one a running listener accepted from an address
    end only if their sockets end them, and the listener of an existing stub ends only if its
    listening socket ends. *)
Theorem C71_used_conn_ended : forall bk cbk dg tr s c,
  history bk cbk dg tr s -> used_conn s tr c -> ~ conn_runs s c -> ended_by_socket c tr.
Proof. exact @used_conn_ended. Qed.
Print Assumptions C71_used_conn_ended.
Theorem C71_listener_ended : forall bk cbk dg tr s n t,
  history bk cbk dg tr s -> nth_error (r_stubs s) n = Some t -> st_alive t = true -> ~ stub_listening s n ->
  In (EAcceptEnd (st_lst t), OUnit) tr.
Proof. exact @listener_ended. Qed.
Print Assumptions C71_listener_ended.
Example C71_example : exists s tr, run b0 c0 (rt_init true) ex_reply = Some (s, tr) /\ history b0 c0 true tr s /\
  used_conn s tr 0 /\ used_conn s tr 1 /\ conn_runs s 0 /\ conn_runs s 1 /\ stub_exists s 0 /\ stub_listening s 0.
Proof.
  eexists. eexists. split; [vm_compute; reflexivity|]. split; [apply (ex_history ex_reply); vm_compute; reflexivity|].
  split; [right; right; exists 0, 5%N; split; [eexists; split; reflexivity|];
    eexists (_ :: _ :: _ :: _ :: _ :: nil), _; split; [reflexivity|]; intros d K; cbn in K; repeat (destruct K as [K|K]; [discriminate K|]); exact K|].
  split; [right; left; exists 0, 6%N; split; [eexists; split; reflexivity|];
    eexists (_ :: _ :: _ :: _ :: _ :: _ :: _ :: _ :: _ :: _ :: _ :: _ :: _ :: nil), true, _; split; [reflexivity|];
    split; [intros ok d K; cbn in K; repeat (destruct K as [K|K]; [discriminate K|]); exact K|discriminate]|].
  repeat split; do 2 eexists; repeat split.
Qed.
(** The same connection ends when its socket does, though the stub exists. *)
Example C71_example_ended : exists s tr, run b0 c0 (rt_init true) (ex_reply ++ [EEnd 1]) = Some (s, tr) /\ history b0 c0 true tr s /\
  stub_exists s 0 /\ ~ conn_runs s 1 /\ ended_by_socket 1 tr.
Proof.
  eexists. eexists. split; [vm_compute; reflexivity|]. split; [apply (ex_history (ex_reply ++ [EEnd 1])); vm_compute; reflexivity|].
  split; [eexists; split; reflexivity|]. split; [intros (x & X & A); injection X as <-; discriminate A|left; cbn; tauto].
Qed.

(** C72.  Nothing is left running: when no stub and no proxy exists and no call is active, the
    tasks alone bring every connection and listener to its end, if the sockets take what is sent,
    and everything accepted for sending is sent first. *)
Theorem C72_nothing_left : forall bk cbk dg tr s,
  history bk cbk dg tr s -> r_ep s = EpWait -> (forall n, ~ stub_exists s n) -> (forall n, ~ proxy_exists s n) ->
  exists tr' s', steps bk cbk s tr' s' /\ Forall (fun p => winding_down (fst p)) tr' /\
    (forall c, ~ conn_runs s' c) /\ (forall l, ~ lsnr_runs s' l) /\
    (forall c, conn_runs s c -> sent c (tr ++ tr') = map encode (accepted c tr)).
Proof. exact @nothing_left. Qed.
Print Assumptions C72_nothing_left.
Example C72_example : exists s tr, run b0 c0 (rt_init true) (ex_reply ++ [EDropStub 0]) = Some (s, tr) /\ history b0 c0 true tr s /\
  r_ep s = EpWait /\ (forall n, ~ stub_exists s n) /\ (forall n, ~ proxy_exists s n) /\ conn_runs s 0 /\ conn_runs s 1 /\ lsnr_runs s 0 /\
  accepted 1 tr = [ex_m 8] /\ sent 1 tr = [].
Proof.
  eexists. eexists. split; [vm_compute; reflexivity|]. split; [apply (ex_history (ex_reply ++ [EDropStub 0])); vm_compute; reflexivity|].
  split; [reflexivity|]. split; [intros n (t & X & A); ex_pick n X; discriminate A|]. split; [intros n (t & X & A); ex_pick n X; discriminate A|].
  split; [eexists; split; reflexivity|]. split; [eexists; split; reflexivity|]. split; [eexists; split; reflexivity|]. split; reflexivity.
Qed.

(** C73.  What [serve] and [proxy] return: a stub or proxy for what was asked for; "already exists"
    only if the listener or connection that had the id runs or a message for it is being handed
    over; another error only if the connector failed, a listening socket ended or a socket
    connected to the address ended.  At rest, with the id free, both succeed, except that [serve]
    fails while a stub remains whose listener has ended, and [proxy] fails while a connection to
    the address that has ended is still owned. *)
Theorem C73_call_exists : forall bk cbk dg tr ok s,
  history bk cbk dg (tr ++ [(EEp ok, OExists)]) s ->
  exists id k, last_call tr = Some (id, k) /\ occupied s tr id.
Proof. exact @call_exists. Qed.
Print Assumptions C73_call_exists.
Theorem C73_stub_result : forall bk cbk dg tr e n id s,
  history bk cbk dg (tr ++ [(e, OStub n id)]) s -> (exists ok, e = EEp ok) /\ last_call tr = Some (id, None).
Proof. exact @stub_result. Qed.
Print Assumptions C73_stub_result.
Theorem C73_proxy_result : forall bk cbk dg tr e n id a s,
  history bk cbk dg (tr ++ [(e, OProxy n id a)]) s -> (exists ok, e = EEp ok) /\ last_call tr = Some (id, Some a).
Proof. exact @proxy_result. Qed.
Print Assumptions C73_proxy_result.
Theorem C73_call_fails : forall bk cbk dg tr ok s,
  history bk cbk dg (tr ++ [(EEp ok, OError)]) s ->
  ok = false \/
  (exists id l, last_call tr = Some (id, None) /\ In (EAcceptEnd l, OUnit) tr) \/
  (exists id a c, last_call tr = Some (id, Some a) /\ opened c a tr /\ ended_by_socket c tr).
Proof. exact @call_fails. Qed.
Print Assumptions C73_call_fails.
Theorem C73_serve_succeeds : forall bk cbk dg tr s id,
  history bk cbk dg tr s -> idle s -> r_open s = true -> ~ occupied s tr id ->
  (forall n, stub_exists s n -> stub_listening s n) ->
  exists s' n, run bk cbk s [EServe id; EEp true; EEp true; EEp true; EEp true] =
    Some (s', [(EServe id, OUnit); (EEp true, OUnit); (EEp true, OUnit); (EEp true, OUnit); (EEp true, OStub n id)]) /\
    (forall k, ~ served n k tr) /\ stub_exists s' n /\ stub_listening s' n.
Proof. exact @serve_succeeds. Qed.
Print Assumptions C73_serve_succeeds.
Theorem C73_serve_stuck : forall bk cbk dg tr s id n,
  history bk cbk dg tr s -> idle s -> r_open s = true -> ~ occupied s tr id ->
  stub_exists s n -> ~ stub_listening s n ->
  exists s', run bk cbk s [EServe id; EEp true; EEp true; EEp true; EEp true] =
    Some (s', [(EServe id, OUnit); (EEp true, OUnit); (EEp true, OUnit); (EEp true, OUnit); (EEp true, OError)]).
Proof. exact @serve_stuck. Qed.
Print Assumptions C73_serve_stuck.
Theorem C73_proxy_succeeds : forall bk cbk dg tr s id a,
  history bk cbk dg tr s -> idle s -> r_open s = true -> ~ occupied s tr id ->
  (forall c, shared_conn c a tr -> owned_conn s c -> conn_runs s c) ->
  exists s' n p o, run bk cbk s [EProxy id a; EEp true; EEp true; EEp true; EEp true] =
    Some (s', [(EProxy id a, OUnit); (EEp true, OUnit); (EEp true, o); (EEp true, OUnit); (EEp true, OProxy n id a)]) /\
    (forall k b, ~ proxied n k b tr) /\ nth_error (r_proxies s') n = Some p /\ px_alive p = true /\ px_remote p = a /\ conn_runs s' (px_conn p) /\
    (o = OSpawned (px_conn p) a /\ (forall b, ~ opened (px_conn p) b tr) \/ o = OUnit /\ shared_conn (px_conn p) a tr /\ owned_conn s (px_conn p)).
Proof. exact @proxy_succeeds. Qed.
Print Assumptions C73_proxy_succeeds.
Theorem C73_proxy_stuck : forall bk cbk dg tr s id a c,
  history bk cbk dg tr s -> idle s -> r_open s = true -> ~ occupied s tr id ->
  shared_conn c a tr -> (forall d, shared_conn d a tr -> owned_conn s d /\ ~ conn_runs s d) -> (forall n ok, ~ In (EStub n ok, OError) tr) ->
  exists s', run bk cbk s [EProxy id a; EEp true; EEp true; EEp true; EEp true] =
    Some (s', [(EProxy id a, OUnit); (EEp true, OUnit); (EEp true, OUnit); (EEp true, OUnit); (EEp true, OError)]).
Proof. exact @proxy_stuck. Qed.
Print Assumptions C73_proxy_stuck.
(** A dropped stub is still in the way of [serve]. *)
Example C73_example_exists : exists s tr, run b0 c0 (rt_init true) (ex_serve (1%N, 1%N) ++ [EDropStub 0; EServe (1%N, 1%N); EEp true]) = Some (s, tr) /\
  last tr (EClose, OUnit) = (EEp true, OExists) /\ ~ stub_exists s 0.
Proof. eexists. eexists. split; [vm_compute; reflexivity|]. split; [reflexivity|]. intros (t & X & A). injection X as <-. discriminate A. Qed.
(** A peer is connected, everything is at rest, another id is free: [serve] and [proxy] succeed. *)
Definition ex_calm : list event := ex_serve (1%N, 1%N) ++ ex_accept 0 5%N ++ [EListener 0].
Example C73_example_free : exists s tr, run b0 c0 (rt_init true) ex_calm = Some (s, tr) /\ history b0 c0 true tr s /\ idle s /\ r_open s = true /\
  ~ occupied s tr (2%N, 1%N) /\ (forall n, stub_exists s n -> stub_listening s n) /\ shared_conn 0 5%N tr /\ owned_conn s 0 /\ (forall c, c = 0 -> conn_runs s c).
Proof.
  eexists. eexists. split; [vm_compute; reflexivity|]. split; [apply (ex_history ex_calm); vm_compute; reflexivity|].
  split; [ex_idle|]. split; [reflexivity|]. split; [ex_unused|]. split; [intros n (t & X & A); ex_pick n X; do 2 eexists; repeat split|].
  split; [right; eexists (_ :: _ :: _ :: _ :: _ :: nil), 0, _; split; [reflexivity|cbn; tauto]|].
  split; [eapply (own_listener _ _ 0); [reflexivity|reflexivity|left; reflexivity]|]. intros c ->. eexists. split; reflexivity.
Qed.
(** The listening socket has ended: [serve] fails for every id. *)
Definition ex_deaf : list event := ex_calm ++ [EAcceptEnd 0].
Example C73_example_deaf : exists s tr, run b0 c0 (rt_init true) ex_deaf = Some (s, tr) /\ history b0 c0 true tr s /\ idle s /\ r_open s = true /\
  ~ occupied s tr (2%N, 1%N) /\ stub_exists s 0 /\ ~ stub_listening s 0.
Proof.
  eexists. eexists. split; [vm_compute; reflexivity|]. split; [apply (ex_history ex_deaf); vm_compute; reflexivity|].
  split; [ex_idle|]. split; [reflexivity|]. split; [ex_unused|]. split; [eexists; split; reflexivity|].
  intros (t & x & X & Y & A). injection X as <-. injection Y as <-. discriminate A.
Qed.
(** The connection of the peer has ended, the listener still owns it: [proxy] fails. *)
Definition ex_left : list event := ex_calm ++ [EEnd 0].
Example C73_example_left : exists s tr, run b0 c0 (rt_init true) ex_left = Some (s, tr) /\ history b0 c0 true tr s /\ idle s /\ r_open s = true /\
  ~ occupied s tr (2%N, 1%N) /\ shared_conn 0 5%N tr /\ (forall d, shared_conn d 5%N tr -> owned_conn s d /\ ~ conn_runs s d) /\
  (forall n ok, ~ In (EStub n ok, OError) tr).
Proof.
  eexists. eexists. split; [vm_compute; reflexivity|]. split; [apply (ex_history ex_left); vm_compute; reflexivity|].
  split; [ex_idle|]. split; [reflexivity|]. split; [ex_unused|]. split; [right; eexists (_ :: _ :: _ :: _ :: _ :: nil), 0, _; split; [reflexivity|cbn; tauto]|].
  split; [|intros n ok K; cbn in K; repeat (destruct K as [K|K]; [discriminate K|]); exact K].
  intros d SC. assert (d = 0).
  { assert (K : exists e, In (e, OSpawned d 5%N) [(EServe (1%N, 1%N), OUnit); (EEp true, OUnit); (EEp true, OUnit); (EEp true, OUnit); (EEp true, OStub 0 (1%N, 1%N));
      (EAccept 0 5%N, OSpawned 0 5%N); (EAcceptShare 0, OUnit); (EListener 0, OUnit); (EEnd 0, OUnit)]).
    { destruct SC as [(t1 & n & ok & t2 & ok' & E & _)|(t1 & l & t2 & E & _)]; eexists; rewrite E; apply in_app_iff; right; left; reflexivity. }
    destruct K as (e & K). cbn in K. repeat (destruct K as [K|K]; [congruence|]). destruct K. }
  subst d. split; [eapply (own_listener _ _ 0); [reflexivity|reflexivity|left; reflexivity]|]. intros (x & X & A). injection X as <-. discriminate A.
Qed.

(** C74.  What [send_to] does: it fails only if the connector fails, the transport is no datagram
    transport, the endpoint was dropped, or a connection to the address ended or lost its owner.
    At rest it uses the connection to the address if there is one, opens one if there is none, and
    when all have ended it succeeds at the latest the second time. *)
Theorem C74_send_fails : forall bk cbk dg tr n ok s,
  history bk cbk dg (tr ++ [(EStub n ok, OError)]) s ->
  ok = false \/ dg = false \/ In (EClose, OUnit) tr \/
  exists a m c, last_send_to n tr = Some (a, m) /\ opened c a tr /\ (~ conn_runs s c \/ ~ owned_conn s c).
Proof. exact @send_fails. Qed.
Print Assumptions C74_send_fails.
Theorem C74_send_reuses : forall bk cbk dg tr s n a m c,
  history bk cbk dg tr s -> idle s -> stub_exists s n -> shared_conn c a tr ->
  (forall d, opened d a tr -> conn_runs s d /\ owned_conn s d) ->
  exists s' d, run bk cbk s [ESendTo n a m; EStub n true; EStub n true; EStub n true] =
    Some (s', [(ESendTo n a m, OUnit); (EStub n true, OUnit); (EStub n true, OUnit); (EStub n true, OOk d m)]) /\ shared_conn d a tr.
Proof. exact @send_reuses. Qed.
Print Assumptions C74_send_reuses.
Theorem C74_send_opens : forall bk cbk dg tr s n a m,
  history bk cbk dg tr s -> idle s -> r_open s = true -> dg = true -> stub_exists s n ->
  (forall c, shared_conn c a tr -> ~ owned_conn s c) ->
  exists s' c, run bk cbk s [ESendTo n a m; EStub n true; EStub n true; EStub n true; EStub n true; EStub n true] =
    Some (s', [(ESendTo n a m, OUnit); (EStub n true, OUnit); (EStub n true, OSpawned c a); (EStub n true, OUnit); (EStub n true, OUnit);
               (EStub n true, OOk c m)]) /\ (forall b, ~ opened c b tr).
Proof. exact @send_opens. Qed.
Print Assumptions C74_send_opens.
Theorem C74_send_recovers : forall bk cbk dg tr s n a m m',
  history bk cbk dg tr s -> idle s -> r_open s = true -> dg = true -> stub_exists s n ->
  (forall c, shared_conn c a tr -> ~ conn_runs s c) ->
  (exists s' c, run bk cbk s [ESendTo n a m; EStub n true; EStub n true; EStub n true; EStub n true; EStub n true] =
    Some (s', [(ESendTo n a m, OUnit); (EStub n true, OUnit); (EStub n true, OSpawned c a); (EStub n true, OUnit); (EStub n true, OUnit);
               (EStub n true, OOk c m)]) /\ (forall b, ~ opened c b tr)) \/
  (exists s1 s' c, run bk cbk s [ESendTo n a m; EStub n true; EStub n true; EStub n true] =
     Some (s1, [(ESendTo n a m, OUnit); (EStub n true, OUnit); (EStub n true, OUnit); (EStub n true, OError)]) /\
   run bk cbk s1 [ESendTo n a m'; EStub n true; EStub n true; EStub n true; EStub n true; EStub n true] =
    Some (s', [(ESendTo n a m', OUnit); (EStub n true, OUnit); (EStub n true, OSpawned c a); (EStub n true, OUnit); (EStub n true, OUnit);
               (EStub n true, OOk c m')]) /\ (forall b, ~ opened c b tr)).
Proof. exact @send_recovers. Qed.
Print Assumptions C74_send_recovers.
(** From the states of C73: address 5 is connected, address 6 is not; after the end of the
    connection the first [send_to] fails and the second opens a new connection. *)
Example C74_example :
  (exists s tr, run b0 c0 (rt_init true) (ex_calm ++ [ESendTo 0 5%N (ex_m 7); EStub 0 true; EStub 0 true; EStub 0 true]) = Some (s, tr) /\
    last tr (EClose, OUnit) = (EStub 0 true, OOk 0 (ex_m 7))) /\
  (exists s tr, run b0 c0 (rt_init true) (ex_calm ++ [ESendTo 0 6%N (ex_m 7); EStub 0 true; EStub 0 true; EStub 0 true; EStub 0 true; EStub 0 true]) = Some (s, tr) /\
    last tr (EClose, OUnit) = (EStub 0 true, OOk 1 (ex_m 7))) /\
  (exists s tr, run b0 c0 (rt_init true) (ex_left ++ [ESendTo 0 5%N (ex_m 7); EStub 0 true; EStub 0 true; EStub 0 true]) = Some (s, tr) /\
    last tr (EClose, OUnit) = (EStub 0 true, OError)) /\
  (exists s tr, run b0 c0 (rt_init true) (ex_left ++ [ESendTo 0 5%N (ex_m 7); EStub 0 true; EStub 0 true; EStub 0 true;
      ESendTo 0 5%N (ex_m 8); EStub 0 true; EStub 0 true; EStub 0 true; EStub 0 true; EStub 0 true]) = Some (s, tr) /\
    last tr (EClose, OUnit) = (EStub 0 true, OOk 1 (ex_m 8))).
Proof. repeat split; do 2 eexists; (split; [vm_compute; reflexivity|reflexivity]). Qed.

(** C79.  A call whose future is dropped before it returns.  A [send_to] can be dropped at any point:
    the stub is free again, nothing else changes, and its message is not sent, because a message is
    handed to a connection only by the last call, if that was neither dropped nor over.  Dropping
    calls is the way out of the deadlock of C60.  A connection the endpoint opens for a dropped call
    belongs to nobody, carries nothing and can end at once.  Calls of [serve] and [proxy] dropped
    before the endpoint took them are executed nevertheless, in their order. *)
Theorem C79_dropped : forall bk cbk s n b,
  stub_exists s n -> busy s n ->
  exists s', step bk cbk s (ECancel n b) = Some (s', OUnit) /\ ~ busy s' n /\ stub_exists s' n /\
    r_conns s' = r_conns s /\ r_lsnrs s' = r_lsnrs s /\ r_ifaces s' = r_ifaces s /\ r_proxies s' = r_proxies s /\
    r_imap s' = r_imap s /\ r_cmap s' = r_cmap s /\ r_ep s' = r_ep s /\
    (forall k, k <> n -> nth_error (r_stubs s') k = nth_error (r_stubs s) k) /\
    (forall c, owned_conn s' c -> owned_conn s c) /\
    stub_backlog s' n = stub_backlog s n /\
    (forall a m, exists s1, step bk cbk s' (ESendTo n a m) = Some (s1, OUnit)).
Proof. exact @dropped. Qed.
Print Assumptions C79_dropped.
Theorem C79_sent_by : forall bk cbk dg tr n ok c m s,
  history bk cbk dg (tr ++ [(EStub n ok, OOk c m)]) s ->
  exists a t1 t2, tr = t1 ++ (ESendTo n a m, OUnit) :: t2 /\ (forall p, In p t2 -> ~ call_over n p) /\ opened c a tr.
Proof. exact @sent_by. Qed.
Print Assumptions C79_sent_by.
Theorem C79_way_out : forall bk cbk dg tr s,
  history bk cbk dg tr s -> exists tr' s', steps bk cbk s tr' s' /\ idle s' /\
  (forall t1 e o t2, tr' = t1 ++ (e, o) :: t2 -> cooperative e \/
     exists n s1 c, e = ECancel n false /\ steps bk cbk s t1 s1 /\ jammed bk (tr ++ t1) s1 c n).
Proof. exact @way_out. Qed.
Print Assumptions C79_way_out.
Theorem C79_left_behind : forall bk cbk dg tr1 k ok c a tr2 s,
  history bk cbk dg (tr1 ++ (ETake k ok, OSpawned c a) :: tr2) s ->
  (exists t1 n m t2, tr1 = t1 ++ (ECancel n true, OUnit) :: t2 /\ last_send_to n t1 = Some (a, m)) /\
  ~ owned_conn s c /\ accepted c (tr1 ++ (ETake k ok, OSpawned c a) :: tr2) = [] /\ sent c (tr1 ++ (ETake k ok, OSpawned c a) :: tr2) = [] /\
  (conn_runs s c -> exists s', step bk cbk s (EUnowned c) = Some (s', OUnit) /\ ~ conn_runs s' c).
Proof. exact @left_behind. Qed.
Print Assumptions C79_left_behind.
Theorem C79_abandoned_calls : forall bk cbk dg tr s,
  history bk cbk dg tr s -> exists rest, Permutation (abandoned tr) (taken_up tr ++ rest) /\ (idle s -> rest = []).
Proof. exact @abandoned_calls. Qed.
Print Assumptions C79_abandoned_calls.
(** The stub is waiting for a connection to address 6 when its call is dropped.  The endpoint opens
    the connection for nobody; the next call opens another one. *)
Definition ex_drop : list event := ex_serve (1%N, 1%N) ++ [EListener 0; ESendTo 0 6%N (ex_m 7); EStub 0 true].
Definition ex_dropped : list event := ex_drop ++ [ECancel 0 true; ETake 0 true].
Example C79_example : exists s tr, run b0 c0 (rt_init true) ex_drop = Some (s, tr) /\ history b0 c0 true tr s /\ stub_exists s 0 /\ busy s 0.
Proof.
  eexists. eexists. split; [vm_compute; reflexivity|]. split; [apply (ex_history ex_drop); vm_compute; reflexivity|].
  split; eexists; (split; [reflexivity|]); [reflexivity|discriminate].
Qed.
Example C79_example_left : exists s tr1, history b0 c0 true (tr1 ++ [(ETake 0 true, OSpawned 0 6%N)]) s /\ conn_runs s 0 /\
  exists s', run b0 c0 s [EUnowned 0; ESendTo 0 6%N (ex_m 8); EStub 0 true; EStub 0 true; EStub 0 true; EStub 0 true; EStub 0 true] =
    Some (s', [(EUnowned 0, OUnit); (ESendTo 0 6%N (ex_m 8), OUnit); (EStub 0 true, OUnit); (EStub 0 true, OSpawned 1 6%N); (EStub 0 true, OUnit); (EStub 0 true, OUnit);
               (EStub 0 true, OOk 1 (ex_m 8))]).
Proof.
  destruct (run b0 c0 (rt_init true) ex_dropped) as [[s tr]|] eqn:R; [|vm_compute in R; discriminate]. assert (H := ex_history _ _ _ R).
  vm_compute in R. injection R as E3 E4. rewrite <- E4, <- E3 in H. clear E3 E4 s tr.
  match type of H with history _ _ _ (?a1 :: ?a2 :: ?a3 :: ?a4 :: ?a5 :: ?a6 :: ?a7 :: ?a8 :: ?a9 :: ?t) _ => eexists; exists [a1; a2; a3; a4; a5; a6; a7; a8; a9] end.
  split; [exact H|]. split; [eexists; split; reflexivity|]. eexists. vm_compute. reflexivity.
Qed.
(** The deadlock of C60, and the way out. *)
Example C79_example_jam : exists s tr, run b0 c0 (rt_init true) (ex_jam ++ [ECancel 0 false; ERecvFrom 0; ERoute 0; EEp true]) = Some (s, tr) /\
  last tr (EClose, OUnit) = (EEp true, OExists).
Proof. eexists. eexists. split; [vm_compute; reflexivity|reflexivity]. Qed.
(** [serve] is called and dropped at once: the id is nevertheless taken. *)
Definition ex_gone : list event := [EAbandon (1%N, 1%N) None; ETake 0 true; EEp true; EEp true; EEp true; EEp true; EServe (1%N, 1%N); EEp true].
Example C79_example_serve : exists s tr, run b0 c0 (rt_init true) ex_gone = Some (s, tr) /\
  history b0 c0 true tr s /\ abandoned tr = [((1%N, 1%N), None)] /\ taken_up tr = [((1%N, 1%N), None)] /\ last tr (EClose, OUnit) = (EEp true, OExists).
Proof.
  eexists. eexists. split; [vm_compute; reflexivity|]. split; [apply (ex_history ex_gone); vm_compute; reflexivity|]. repeat split.
Qed.
