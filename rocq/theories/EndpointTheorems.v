(** Proofs of the statements in PropertiesEndpoint.v. *)
From Coq Require Import List NArith ZArith Bool Lia ZifyBool ZifyNat ZifyN.
From Verif Require Import BytesModel UniverseModel WireSpec BytesProofs UniverseProofs
  PrimitivesModel PrimitivesSpec PrimitivesProofs MessageModel MessageSpec MessageProofs MessageTheorems
  MapModel EndpointModel EndpointSpec EndpointProofs.
Import ListNotations.
Open Scope N_scope.
Ltac Zify.zify_post_hook ::= Z.div_mod_to_equations.
Arguments N.add : simpl never. Arguments N.mul : simpl never. Arguments N.pow : simpl never.
Arguments N.of_nat : simpl never. Arguments N.sub : simpl never.

(** C34 *)
Lemma check_spec {B} i (m : message header B) d :
  (check i m d = None <-> passes i m d) /\
  (forall c, check i m d = Some (Invalid c) \/ check i m d = Some (Dropped c) <-> fault i m d c).
Proof.
  split; [apply check_passes|]. intros c. assert (H := check_cases i m d). split.
  - intros [E|E]; rewrite E in H; exact H.
  - intros F. destruct (check i m d) as [[c'|c']|].
    + left. rewrite (fault_unique _ _ _ _ _ H F). reflexivity.
    + right. rewrite (fault_unique _ _ _ _ _ H F). reflexivity.
    + exfalso. exact (fault_excludes _ _ _ _ F H).
Qed.

Lemma interface_builders i :
  (forall v, i_version (with_version i v) = v /\ i_flavor (with_version i v) = i_flavor i /\
             forall k, i_get (with_version i v) k = i_get i k) /\
  (i_flavor (into_stub i) = Stub /\ i_version (into_stub i) = i_version i /\ forall k, i_get (into_stub i) k = i_get i k) /\
  (i_flavor (into_proxy i) = Proxy /\ i_version (into_proxy i) = i_version i /\ forall k, i_get (into_proxy i) k = i_get i k) /\
  (forall id k, i_get (with_method i id) k = if id =? k then Some Method else i_get i k) /\
  (forall id k, i_get (with_procedure i id) k = if id =? k then Some Procedure else i_get i k) /\
  (forall id k, i_get (with_event i id) k = if id =? k then Some Event else i_get i k) /\
  (forall id, i_version (with_method i id) = i_version i /\ i_flavor (with_method i id) = i_flavor i /\
     i_version (with_procedure i id) = i_version i /\ i_flavor (with_procedure i id) = i_flavor i /\
     i_version (with_event i id) = i_version i /\ i_flavor (with_event i id) = i_flavor i).
Proof.
  assert (G : forall id f k, i_get (snd (i_insert i id f)) k = if id =? k then Some f else i_get i k).
  { intros id f k. cbn [i_insert snd i_get i_set_methods i_methods]. unfold i_get. destruct (N.eqb_spec id k) as [->|Hd].
    - apply get_insert_same. exact N.eqb_eq.
    - apply get_insert_other; [exact N.eqb_eq|congruence]. }
  repeat split; intros; first [apply G | reflexivity].
Qed.

Lemma new_endpoint :
  i_version interface_default = 0 /\ i_flavor interface_default = Stub /\ (forall k, i_get interface_default k = None) /\
  (forall k, e_get endpoint_new k = None) /\
  (forall e id i k, e_get (with_interface e id i) k = if id =? k then Some i else e_get e k).
Proof.
  repeat split. intros e id i k. unfold with_interface, e_insert, e_get. cbn [snd]. destruct (N.eqb_spec id k) as [->|Hd].
  - apply get_insert_same. exact N.eqb_eq.
  - apply get_insert_other; [exact N.eqb_eq|congruence].
Qed.

(** C35 *)
Lemma poll_ok {B} (db : Deserialize B) e buf m rest :
  poll db e buf = POk m rest <-> de_msg db buf = DOk m rest /\ accepted e m Incoming.
Proof.
  unfold poll, accepted, e_get. destruct (de_msg db buf) as [m' rest'|err rest'| |]; try (split; [discriminate|intros [[=] _]]).
  destruct (N.eqb_spec (msg_protocol m') 1) as [Hp|Hp]; cbn [negb].
  2:{ split; [discriminate|]. intros [[= -> ->] [H _]]. contradiction. }
  destruct (map_get N.eqb (m_service m') e) as [i|] eqn:Ei.
  2:{ split; [discriminate|]. intros [[= -> ->] (_ & i & Hi & _)]. congruence. }
  assert (C := check_passes i m' Incoming). split.
  - destruct (check i m' Incoming) as [[c|c]|]; try discriminate. intros [= -> ->]. split; [reflexivity|].
    split; [exact Hp|]. exists i. split; [exact Ei|]. apply C. reflexivity.
  - intros [[= -> ->] (_ & j & Hj & P)]. assert (j = i) by congruence. subst j.
    rewrite (proj2 C P). reflexivity.
Qed.

Lemma poll_rejects {B} (db : Deserialize B) e buf m rest :
  de_msg db buf = DOk m rest ->
  forall c, rejected e m Incoming c <->
    poll db e buf = PErr (InvalidMessage m c) rest \/ poll db e buf = PErr (MessageDropped m c) rest.
Proof.
  intros E c. unfold poll. rewrite E. split.
  - intros R. unfold ep_invalid_or_dropped. destruct R as [Hp|Hp Hs|i c Hp Hs F].
    + destruct (N.eqb_spec (msg_protocol m) 1); [contradiction|]. cbn [negb]. destruct (mt_eqb _ _); auto.
    + rewrite Hp. unfold e_get in Hs. rewrite Hs. cbn. destruct (mt_eqb _ _); auto.
    + rewrite Hp. unfold e_get in Hs. rewrite Hs. cbn [N.eqb Pos.eqb negb].
      apply (proj2 (check_spec i m Incoming)) in F. destruct F as [-> | ->]; auto.
  - unfold ep_invalid_or_dropped.
    destruct (N.eqb_spec (msg_protocol m) 1) as [Hp|Hp]; cbn [negb].
    2:{ destruct (mt_eqb _ _); intros [[=]|[=]]; subst; apply rej_protocol; exact Hp. }
    destruct (map_get N.eqb (m_service m) e) as [i|] eqn:Ei.
    2:{ destruct (mt_eqb _ _); intros [[=]|[=]]; subst; apply rej_service; assumption. }
    assert (C := check_cases i m Incoming). destruct (check i m Incoming) as [[c'|c']|]; intros [[=]|[=]]; subst;
      apply (rej_fault _ _ _ i); assumption.
Qed.

Lemma poll_other {B} (db : Deserialize B) e buf :
  (forall err rest, poll db e buf = PErr (InvalidData err) rest <-> de_msg db buf = DErr err rest) /\
  (forall err rest, poll db e buf <> PErr (InvalidInput err) rest) /\
  (poll db e buf = PPanic <-> de_msg db buf = DPanic) /\
  (poll db e buf = PHang <-> de_msg db buf = DHang) /\
  (forall m c rest, poll db e buf = PErr (InvalidMessage m c) rest \/ poll db e buf = PErr (MessageDropped m c) rest ->
     de_msg db buf = DOk m rest).
Proof.
  unfold poll, ep_invalid_or_dropped. destruct (de_msg db buf) as [m' rest'|err' rest'| |] eqn:E.
  2,3,4: (split; [intros; split; congruence|]; split; [intros; discriminate|]; split; [split; congruence|];
          split; [split; congruence|]; intros ? ? ? [[=]|[=]]).
  destruct (N.eqb_spec (msg_protocol m') 1) as [Hp|Hp]; cbn [negb];
    [destruct (map_get N.eqb (m_service m') e) as [i|]; [destruct (check i m' Incoming) as [[c'|c']|]|]|];
    try destruct (mt_eqb (msg_type m') Request);
    (split; [intros; split; congruence|]; split; [intros; discriminate|]; split; [split; congruence|];
     split; [split; congruence|]; intros ? ? ? [[=]|[=]]; subst; reflexivity).
Qed.

Lemma poll_total e buf :
  match poll de_bytes e buf with
  | POk _ rest | PErr _ rest => exists used, buf = used ++ rest
  | PPanic | PHang => False
  end.
Proof.
  assert (H := message_total buf). unfold poll.
  destruct (de_msg de_bytes buf) as [m rest|err rest| |]; try exact H.
  destruct (negb (msg_protocol m =? 1)); [exact H|]. destruct (map_get N.eqb (m_service m) e) as [i|]; [|exact H].
  destruct (check i m Incoming) as [[c|c]|]; exact H.
Qed.

(** C36 *)
Lemma process_rejected {B} (SB : Serialize B) e (m : message header B) b c :
  rejected e m Outgoing c ->
  process SB e m b = RErr (InvalidMessage m c) b \/
  (process SB e m b = RErr (MessageDropped m c) b /\ msg_type m <> Request).
Proof.
  unfold process. intros R. destruct R as [Hp|Hp Hs|i c Hp Hs F].
  - destruct (N.eqb_spec (msg_protocol m) 1); [contradiction|]. cbn [negb]. auto.
  - rewrite Hp. unfold e_get in Hs. rewrite Hs. cbn. auto.
  - rewrite Hp. unfold e_get in Hs. rewrite Hs. cbn [N.eqb Pos.eqb negb].
    apply (proj2 (check_spec i m Outgoing)) in F. destruct F as [->|Hd]; auto.
    rewrite Hd. right. split; [reflexivity|]. intros Ht. exact (check_outgoing_answerable i m Ht c Hd).
Qed.

Lemma process_rejects_how {B} (SB : Serialize B) e (m : message header B) b c :
  rejected e m Outgoing c ->
  ((c = RcWrongInterfaceVersion \/ c = RcUnknownMethod) /\ msg_type m <> Request -> process SB e m b = RErr (MessageDropped m c) b) /\
  (~ ((c = RcWrongInterfaceVersion \/ c = RcUnknownMethod) /\ msg_type m <> Request) -> process SB e m b = RErr (InvalidMessage m c) b).
Proof.
  unfold process. intros R. destruct R as [Hp|Hp Hs|i c Hp Hs F].
  - destruct (N.eqb_spec (msg_protocol m) 1); [contradiction|]. cbn [negb]. split; [intros [[H|H] _]; discriminate H|reflexivity].
  - rewrite Hp. unfold e_get in Hs. rewrite Hs. cbn. split; [intros [[H|H] _]; discriminate H|reflexivity].
  - rewrite Hp. unfold e_get in Hs. rewrite Hs. cbn [N.eqb Pos.eqb negb].
    assert (RQ : forall r, invalid_or_dropped (msg_type m) r = if mt_eqb (msg_type m) Request then Invalid r else Dropped r) by reflexivity.
    assert (E : mt_eqb (msg_type m) Request = true <-> msg_type m = Request) by (destruct (msg_type m); cbn; split; congruence).
    destruct F as [V|V G|kind V G N]; unfold check.
    + apply N.eqb_neq in V. rewrite V. cbn [negb]. rewrite RQ. destruct (mt_eqb (msg_type m) Request).
      * split; [intros [_ H]; exfalso; apply H, E; reflexivity|reflexivity].
      * split; [reflexivity|]. intros H. exfalso. apply H. split; [auto|]. intros T. apply E in T. discriminate T.
    + apply N.eqb_eq in V. rewrite V. unfold i_get in G. rewrite G. cbn [negb]. rewrite RQ. destruct (mt_eqb (msg_type m) Request).
      * split; [intros [_ H]; exfalso; apply H, E; reflexivity|reflexivity].
      * split; [reflexivity|]. intros H. exfalso. apply H. split; [auto|]. intros T. apply E in T. discriminate T.
    + apply N.eqb_eq in V. rewrite V. unfold i_get in G. rewrite G. cbn [negb]. split; [intros [[H|H] _]; discriminate H|]. intros _.
      cbn [sender] in N. destruct (i_flavor i), kind, (msg_type m); cbn; try reflexivity; exfalso; apply N; constructor.
Qed.

Lemma process_accepted {B} (SB : Serialize B) e (m : message header B) b :
  accepted e m Outgoing ->
  process SB e m b = match serialize (ser_msg SB) m b with
                     | WOk n b' => ROk n b' | WErr err b' => RErr (InvalidInput err) b' | WPanic => RPanic end.
Proof.
  intros (Hp & i & Hi & P). unfold process. rewrite Hp. unfold e_get in Hi. rewrite Hi. cbn [N.eqb Pos.eqb negb].
  rewrite (proj2 (check_passes i m Outgoing) P). reflexivity.
Qed.

Lemma accepted_or_rejected {B} e (m : message header B) d : accepted e m d \/ exists c, rejected e m d c.
Proof.
  destruct (N.eq_dec (msg_protocol m) 1) as [Hp|Hp]; [|right; eexists; apply rej_protocol; exact Hp].
  destruct (e_get e (m_service m)) as [i|] eqn:Ei; [|right; eexists; apply rej_service; assumption].
  assert (C := check_cases i m d). destruct (check i m d) as [[c|c]|].
  1,2: right; exists c; apply (rej_fault _ _ _ i); assumption.
  left. split; [exact Hp|]. exists i. split; assumption.
Qed.

Lemma process_writes t e (m : message header (value t)) payload data room :
  message_ok m -> valid t (m_body m) = true -> wire t (m_body m) = Some payload -> accepted e m Outgoing -> 8 + len payload < 2 ^ 32 ->
  16 + len payload <= room ->
  process (ser t) e m (mkW data room)
  = ROk (16 + len payload)
        (mkW (data ++ message_form (m_service m) (m_method m) (m_header m) payload) (room - (16 + len payload))).
Proof.
  intros Hok Hv Hw Ha Hl Hr. rewrite process_accepted by exact Ha.
  destruct (layout t m payload data room Hok Hv Hw Hl) as (_ & _ & E). rewrite E.
  destruct (N.leb_spec (16 + len payload) room); [reflexivity|lia].
Qed.

Lemma process_only t e (m : message header (value t)) b n b' :
  message_ok m -> valid t (m_body m) = true -> process (ser t) e m b = ROk n b' ->
  accepted e m Outgoing /\ exists payload, wire t (m_body m) = Some payload /\ 8 + len payload < 2 ^ 32 /\
    n = 16 + len payload /\
    w_data b' = w_data b ++ message_form (m_service m) (m_method m) (m_header m) payload.
Proof.
  intros Hok Hv E. destruct (accepted_or_rejected e m Outgoing) as [Ha|[c R]].
  2:{ exfalso. destruct (process_rejected (ser t) e m b c R) as [E'|[E' _]]; congruence. }
  split; [exact Ha|]. rewrite process_accepted in E by exact Ha.
  destruct b as [data room].
  destruct (wire t (m_body m)) as [payload|] eqn:Hw.
  2:{ exfalso. destruct (serialize (ser_msg (ser t)) m (mkW data room)) as [n' b''|? ?|] eqn:E'; try discriminate.
      exact (unencodable t m _ _ _ Hok Hv Hw E'). }
  exists payload. split; [reflexivity|].
  destruct (N.lt_ge_cases (8 + len payload) (2 ^ 32)) as [Hl|Hl].
  - split; [exact Hl|]. destruct (layout t m payload data room Hok Hv Hw Hl) as (_ & _ & E'). rewrite E' in E.
    destruct (16 + len payload <=? room); [|discriminate]. injection E as <- <-. split; reflexivity.
  - exfalso. rewrite (too_long t m payload data room Hok Hv Hw Hl) in E. destruct (4 <=? room); discriminate.
Qed.

Lemma process_too_long t e (m : message header (value t)) payload data room :
  message_ok m -> valid t (m_body m) = true -> wire t (m_body m) = Some payload -> accepted e m Outgoing -> 2 ^ 32 <= 8 + len payload ->
  4 <= room ->
  process (ser t) e m (mkW data room)
  = RErr (InvalidInput (InvalidLength (8 + len payload) (2 ^ 32 - 1)))
         (mkW (data ++ be 2 (m_service m) ++ be 2 (m_method m)) (room - 4)).
Proof.
  intros Hok Hv Hw Ha Hl Hr. rewrite process_accepted by exact Ha. rewrite (too_long t m payload data room Hok Hv Hw Hl).
  destruct (N.leb_spec 4 room); [reflexivity|lia].
Qed.

(** C37 *)
Lemma complementary_passes {B} i1 i2 (m : message header B) :
  complementary i1 i2 -> (passes i1 m Outgoing <-> passes i2 m Incoming).
Proof.
  intros (Hv & Hf & Hg). unfold passes. rewrite Hv, Hg, Hf. cbn [sender]. reflexivity.
Qed.
Lemma complementary_accepted {B} e1 e2 i1 i2 (m : message header B) :
  e_get e1 (m_service m) = Some i1 -> e_get e2 (m_service m) = Some i2 -> complementary i1 i2 ->
  (accepted e1 m Outgoing <-> accepted e2 m Incoming).
Proof.
  intros H1 H2 Hc. unfold accepted. rewrite H1, H2. assert (P := complementary_passes i1 i2 m Hc).
  split; intros (Hp & i & [= <-] & Hpass); (split; [exact Hp|]); eexists; (split; [reflexivity|]); apply P; exact Hpass.
Qed.
Lemma complementary_sym i1 i2 : complementary i1 i2 -> complementary i2 i1.
Proof.
  intros (Hv & Hf & Hg). split; [symmetry; exact Hv|]. split; [|intros id; symmetry; apply Hg].
  destruct (i_flavor i1), (i_flavor i2); cbn in *; congruence.
Qed.

Lemma duality t e1 e2 i1 i2 (m : message header (value t)) payload data room rest :
  e_get e1 (m_service m) = Some i1 -> e_get e2 (m_service m) = Some i2 -> complementary i1 i2 ->
  message_ok m -> canonical_header (m_header m) -> framed t = true -> valid t (m_body m) = true ->
  nul_free t (m_body m) = true -> wire t (m_body m) = Some payload -> 8 + len payload < 2 ^ 32 -> 16 + len payload <= room ->
  let form := message_form (m_service m) (m_method m) (m_header m) payload in
  (accepted e1 m Outgoing /\
   process (ser t) e1 m (mkW data room) = ROk (len form) (mkW (data ++ form) (room - len form)) /\
   poll (de t) e2 (form ++ rest) = POk m rest) \/
  (~ accepted e1 m Outgoing /\
   (exists c, process (ser t) e1 m (mkW data room) = RErr (InvalidMessage m c) (mkW data room) \/
              process (ser t) e1 m (mkW data room) = RErr (MessageDropped m c) (mkW data room)) /\
   (exists c, poll (de t) e2 (form ++ rest) = PErr (InvalidMessage m c) rest \/
              poll (de t) e2 (form ++ rest) = PErr (MessageDropped m c) rest)).
Proof.
  intros H1 H2 Hcomp Hok Hc Hf Hv Hz Hw Hl Hr form.
  assert (F : len form = 16 + len payload) by apply form_length.
  assert (D := round_trip_msg t m payload rest Hok Hc Hf Hv Hz Hw Hl). fold form in D.
  assert (A := complementary_accepted e1 e2 i1 i2 m H1 H2 Hcomp).
  destruct (accepted_or_rejected e1 m Outgoing) as [Ha|[c R]].
  - left. split; [exact Ha|]. split.
    + rewrite F. apply process_writes; assumption.
    + apply poll_ok. split; [exact D|]. apply A. exact Ha.
  - right. assert (Hn := rejected_excludes _ _ _ _ R). split; [exact Hn|]. split.
    + exists c. destruct (process_rejected (ser t) e1 m (mkW data room) c R) as [E|[E _]]; auto.
    + destruct (accepted_or_rejected e2 m Incoming) as [Ha|[c' R']]; [exfalso; apply Hn, A, Ha|].
      exists c'. apply (proj1 (poll_rejects (de t) e2 _ m rest D c')). exact R'.
Qed.

Lemma accepted_sendable e2 buf m rest :
  bytes_ok buf -> poll de_bytes e2 buf = POk m rest -> sendable m.
Proof.
  intros Hb E. apply poll_ok in E as [E _].
  destruct (N.lt_ge_cases (len buf) 16) as [Hs|Hs].
  { exfalso. destruct (message_short buf ltac:(unfold len in Hs; lia)) as (? & ? & ? & E' & _). congruence. }
  destruct (parse_header buf Hb Hs) as (s & me & L & h & tail & H1 & H2 & H3 & H4 & H5 & H6 & ->).
  destruct (decode_form s me L h tail H1 H2 H3 H4 H5 H6) as [D1 D2].
  destruct (N.lt_ge_cases L 8) as [H8|H8].
  { exfalso. destruct (D2 H8) as (? & ? & ? & E' & _). congruence. }
  rewrite (D1 H8) in E. injection E as <- <-. split; [|split; [|split]].
  - split; [exact H1|]. split; [exact H2|exact H4].
  - exact H5.
  - cbn [m_body]. apply bytes_ok_firstn. exact H6.
  - cbn [m_body]. unfold len. rewrite firstn_length. lia.
Qed.

Lemma nothing_else e1 e2 i1 i2 buf m rest data room :
  bytes_ok buf -> poll de_bytes e2 buf = POk m rest ->
  e_get e1 (m_service m) = Some i1 -> e_get e2 (m_service m) = Some i2 -> complementary i1 i2 ->
  16 + len (m_body m) <= room ->
  process ser_bytes e1 m (mkW data room)
  = ROk (16 + len (m_body m)) (mkW (data ++ bytes_message_form m) (room - (16 + len (m_body m)))).
Proof.
  intros Hb E H1 H2 Hc Hr. assert (Hs := accepted_sendable e2 buf m rest Hb E). destruct Hs as (Hok & _ & Hy & Hl).
  apply (process_writes TBytes e1 m (m_body m)); try assumption; [|reflexivity|].
  { apply forallb_forall. intros b Hin. unfold bytes_ok in Hy. rewrite Forall_forall in Hy. apply N.ltb_lt, Hy, Hin. }
  apply (complementary_accepted e1 e2 i1 i2 m H1 H2 Hc). apply poll_ok in E. exact (proj2 E).
Qed.

(** C38 *)
Lemma answerable {B} (db : Deserialize B) e buf m rest c :
  de_msg db buf = DOk m rest -> rejected e m Incoming c ->
  poll db e buf =
  PErr (if match c with
           | RcWrongMessageType =>
               match e_get e (m_service m) with
               | Some i => match i_flavor i, i_get i (m_method m) with Stub, Some Method => true | _, _ => false end
               | None => false
               end
           | _ => mt_eqb (msg_type m) Request
           end
        then InvalidMessage m c else MessageDropped m c) rest.
Proof.
  intros E R. unfold poll. rewrite E. destruct R as [Hp|Hp Hs|i c Hp Hs F].
  - destruct (N.eqb_spec (msg_protocol m) 1); [contradiction|]. reflexivity.
  - rewrite Hp. unfold e_get in Hs. rewrite Hs. reflexivity.
  - rewrite Hp, Hs. unfold e_get in Hs. rewrite Hs. cbn [N.eqb Pos.eqb negb].
    destruct (check_answerable i m c) as [[_ C1] [_ C2]].
    assert (Hc : c = RcWrongInterfaceVersion \/ c = RcUnknownMethod \/ c = RcWrongMessageType) by (destruct F; auto).
    destruct Hc as [->|[->| ->]].
    + destruct (mt_eqb_spec (msg_type m) Request) as [Ht|Ht].
      * rewrite C1; [reflexivity|]. split; [exact F|]. left. split; [exact Ht|discriminate].
      * rewrite C2; [reflexivity|]. split; [exact F|]. intros [[? _]|[? _]]; [contradiction|discriminate].
    + destruct (mt_eqb_spec (msg_type m) Request) as [Ht|Ht].
      * rewrite C1; [reflexivity|]. split; [exact F|]. left. split; [exact Ht|discriminate].
      * rewrite C2; [reflexivity|]. split; [exact F|]. intros [[? _]|[? _]]; [contradiction|discriminate].
    + destruct (i_flavor i) eqn:Ef, (i_get i (m_method m)) as [[]|] eqn:Em;
        first [ rewrite C1; [reflexivity|]; split; [exact F|]; right; repeat split; reflexivity
              | rewrite C2; [reflexivity|]; split; [exact F|]; intros [[_ Hx]|(_ & ? & ?)]; congruence ].
Qed.

Lemma request_only {B} (db : Deserialize B) e buf m rest c :
  de_msg db buf = DOk m rest -> rejected e m Incoming c -> c <> RcWrongMessageType ->
  (msg_type m = Request -> poll db e buf = PErr (InvalidMessage m c) rest) /\
  (msg_type m <> Request -> poll db e buf = PErr (MessageDropped m c) rest).
Proof.
  intros E R Hc. rewrite (answerable db e buf m rest c E R).
  replace (match c with RcWrongMessageType => _ | _ => mt_eqb (msg_type m) Request end) with (mt_eqb (msg_type m) Request)
    by (destruct c; try reflexivity; contradiction).
  destruct (mt_eqb_spec (msg_type m) Request); split; intros; try reflexivity; contradiction.
Qed.

Lemma wrong_type {B} (db : Deserialize B) e buf m rest :
  de_msg db buf = DOk m rest -> rejected e m Incoming RcWrongMessageType ->
  (calls_stub_method e m -> poll db e buf = PErr (InvalidMessage m RcWrongMessageType) rest) /\
  (~ calls_stub_method e m -> poll db e buf = PErr (MessageDropped m RcWrongMessageType) rest).
Proof.
  intros E R. rewrite (answerable db e buf m rest _ E R). unfold calls_stub_method. split.
  - intros (i & -> & -> & ->). reflexivity.
  - intros H. destruct (e_get e (m_service m)) as [i|]; [|reflexivity].
    destruct (i_flavor i) eqn:Ef; [|reflexivity]. destruct (i_get i (m_method m)) as [[]|] eqn:Em; try reflexivity.
    exfalso. apply H. exists i. repeat split; assumption.
Qed.

(** C39 *)
Lemma endpoint_history history o k :
  e_get (e_after history) k = latest (fun _ => None) k history /\
  fst (e_apply (e_after history) o) = latest (fun _ => None) (op_key o) history.
Proof.
  assert (G : forall h k, e_get (e_after h) k = latest (fun _ => None) k h).
  { clear. intros h. induction h as [|o h IH]; intros k; [reflexivity|].
    cbn [e_after fold_right latest]. fold (e_after h). unfold e_get in *.
    destruct o as [j v|j|j f]; cbn [e_apply e_insert e_remove e_get_mut snd op_key]; destruct (N.eqb_spec j k) as [->|Hd].
    - apply get_insert_same. exact N.eqb_eq.
    - rewrite get_insert_other; [apply IH|exact N.eqb_eq|congruence].
    - apply get_remove_same.
    - rewrite get_remove_other; [apply IH|exact N.eqb_eq|congruence].
    - rewrite get_update_same. rewrite IH. reflexivity.
    - rewrite get_update_other; [apply IH|exact N.eqb_eq|congruence]. }
  split; [apply G|]. rewrite <- G. destruct o; reflexivity.
Qed.

Lemma interface_history start history o k :
  let i := i_after start history in
  i_get i k = latest (i_get start) k history /\ fst (i_apply i o) = latest (i_get start) (op_key o) history /\
  i_version i = i_version start /\ i_flavor i = i_flavor start.
Proof.
  intros i.
  assert (G : forall h k, i_get (i_after start h) k = latest (i_get start) k h).
  { intros h. induction h as [|p h IH]; intros j; [reflexivity|].
    cbn [i_after fold_right latest]. fold (i_after start h). unfold i_get in *.
    destruct p as [x v|x|x f]; cbn [i_apply i_insert i_remove i_get_mut snd op_key i_set_methods i_methods];
      destruct (N.eqb_spec x j) as [->|Hd].
    - apply get_insert_same. exact N.eqb_eq.
    - rewrite get_insert_other; [apply IH|exact N.eqb_eq|congruence].
    - apply get_remove_same.
    - rewrite get_remove_other; [apply IH|exact N.eqb_eq|congruence].
    - rewrite get_update_same. rewrite IH. reflexivity.
    - rewrite get_update_other; [apply IH|exact N.eqb_eq|congruence]. }
  split; [apply G|]. split; [|].
  - rewrite <- G. destruct o; reflexivity.
  - unfold i. clear. induction history as [|p h IH]; [split; reflexivity|].
    cbn [i_after fold_right]. fold (i_after start h). destruct IH as [IH1 IH2].
    destruct p; split; cbn; assumption.
Qed.

(** C51 *)
Lemma answer_types {B} (m : message header B) c :
  msg_type (msg_into_response m c) = Response /\ msg_type (msg_into_error m c) = Error.
Proof. split; reflexivity. Qed.

Lemma answers_pass {B} e_stub e_proxy i_st i_pr (m : message header B) c :
  accepted e_stub m Incoming -> msg_type m = Request ->
  e_get e_stub (m_service m) = Some i_st -> e_get e_proxy (m_service m) = Some i_pr -> complementary i_pr i_st ->
  accepted e_stub (msg_into_response m c) Outgoing /\ accepted e_proxy (msg_into_response m c) Incoming /\
  accepted e_stub (msg_into_error m c) Outgoing /\ accepted e_proxy (msg_into_error m c) Incoming.
Proof.
  intros (Hp & i & Hi & Hv & kind & Hk & Hs) Ht E1 E2 Hc. assert (i = i_st) by congruence. subst i. clear Hi.
  rewrite Ht in Hs.
  assert (Hf : kind = Method /\ sender (i_flavor i_st) Incoming = Proxy) by (cbn [sender] in *; inversion Hs; split; congruence).
  destruct Hf as [-> Hf]. assert (Hst : i_flavor i_st = Stub) by (destruct (i_flavor i_st); [reflexivity|discriminate Hf]).
  assert (Hc' := complementary_sym _ _ Hc).
  destruct (answer_types m c) as [T1 T2].
  assert (R : accepted e_stub (msg_into_response m c) Outgoing).
  { split; [exact Hp|]. exists i_st. split; [exact E1|]. split; [exact Hv|]. exists Method. split; [exact Hk|].
    rewrite T1, Hst. constructor. }
  assert (Er : accepted e_stub (msg_into_error m c) Outgoing).
  { split; [exact Hp|]. exists i_st. split; [exact E1|]. split; [exact Hv|]. exists Method. split; [exact Hk|].
    rewrite T2, Hst. constructor. }
  split; [exact R|]. split; [apply (complementary_accepted e_stub e_proxy i_st i_pr); assumption|].
  split; [exact Er|]. apply (complementary_accepted e_stub e_proxy i_st i_pr); assumption.
Qed.

(** C52 *)
Lemma error_answer {B} e (m : message header B) c c' :
  rejected e m Incoming c ->
  (c <> RcWrongMessageType -> rejected e (msg_into_error m c') Outgoing c) /\
  (c = RcWrongMessageType ->
     (calls_stub_method e m -> accepted e (msg_into_error m c') Outgoing) /\
     (~ calls_stub_method e m -> rejected e (msg_into_error m c') Outgoing RcWrongMessageType)).
Proof.
  intros R. destruct (answer_types m c') as [_ T]. split.
  - intros Hc. destruct R as [Hp|Hp Hs|i c Hp Hs F].
    + apply rej_protocol. exact Hp.
    + apply rej_service; assumption.
    + apply (rej_fault _ _ _ i); [exact Hp|exact Hs|]. destruct F; [apply fault_version; assumption|apply fault_method; assumption|contradiction].
  - intros ->. inversion R as [| |i c Hp Hs F]; subst. inversion F as [| |kind Hv Hk Hn]; subst.
    split.
    + intros (j & Hj & Hst & Hm). assert (j = i) by congruence. subst j. split; [exact Hp|].
      exists i. split; [exact Hs|]. split; [exact Hv|]. exists Method. split; [exact Hm|]. rewrite T, Hst. constructor.
    + intros Hno. apply (rej_fault _ _ _ i); [exact Hp|exact Hs|]. apply (fault_type _ _ _ kind); [exact Hv|exact Hk|].
      rewrite T. intros S. apply Hno. exists i. split; [exact Hs|]. cbn [sender] in S. 
      remember Error as te. remember (i_flavor i) as fl. destruct S; try discriminate Heqte. split; [reflexivity|exact Hk].
Qed.
