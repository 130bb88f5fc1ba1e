(** Proofs of the statements in PropertiesSample.v. *)
From Coq Require Import List NArith ZArith Bool Lia ZifyBool ZifyNat ZifyN PeanoNat.
From Verif Require Import BytesModel UniverseModel WireSpec BytesProofs UniverseProofs
  PrimitivesModel PrimitivesSpec PrimitivesProofs PrimitivesTheorems MessageModel MessageSpec MessageProofs MessageTheorems
  MapModel EndpointModel EndpointSpec EndpointProofs EndpointTheorems SampleModel SampleSpec.
Import ListNotations.
Open Scope N_scope.
Ltac Zify.zify_post_hook ::= Z.div_mod_to_equations.
Arguments N.add : simpl never. Arguments N.mul : simpl never. Arguments N.pow : simpl never.
Arguments N.of_nat : simpl never. Arguments N.sub : simpl never.
Arguments N.div : simpl never. Arguments N.modulo : simpl never.

(** Vec<u8> is read and written like Bytes. *)
Lemma vec_u8 buf : bytes_ok buf -> de_vec_u8 buf = de_bytes buf.
Proof.
  unfold de_vec_u8, de_bytes. induction buf as [|b buf IH]; intros H; [reflexivity|]. inversion H as [|? ? Hb Ht]; subst.
  rewrite (de_vec_cons (de_uint 1) (b :: buf) b buf (de_uint_sane 1)); [rewrite IH by exact Ht; reflexivity|discriminate| |cbn; lia].
  change (b :: buf) with ([b] ++ buf). rewrite (de_uint_ok 1 [b] buf); [cbn [be_value]; rewrite len_nil, N.pow_0_r; f_equal; lia|reflexivity|constructor; [exact Hb|constructor]].
Qed.
Lemma de_msg_same {B} (d1 d2 : Deserialize B) buf : (forall b, bytes_ok b -> d1 b = d2 b) -> bytes_ok buf ->
  de_msg d1 buf = de_msg d2 buf.
Proof.
  intros E H. unfold de_msg, de_message. destruct (de_tuple_cons de_u16 (de_tuple_cons de_u16 de_tuple_nil) buf) as [ids r|e r| |] eqn:E1; try reflexivity.
  cbn [dbind]. f_equal. unfold deserialize_len. assert (Hr : bytes_ok r).
  { refine (sane_ok _ _ _ _ _ H E1). repeat apply de_tuple_cons_sane; try apply de_u16_sane. apply de_nil_sane. }
  destruct (de_uint (lf_size LF32) r) as [L r2|e r2| |] eqn:E2; try reflexivity. cbn [dbind]. unfold with_take.
  assert (H2 := sane_ok _ _ _ _ (de_uint_sane _) Hr E2).
  assert (H3 := bytes_ok_firstn (N.to_nat (N.min L (len r2))) _ H2). revert H3. generalize (firstn (N.to_nat (N.min L (len r2))) r2). intros i Hi.
  unfold de_tuple_cons at 1 3. destruct (de_header i) as [h r3|e r3| |] eqn:E3; try reflexivity. cbn [dbind].
  unfold de_tuple_cons. rewrite (E r3); [reflexivity|]. exact (sane_ok _ _ _ _ de_header_sane Hi E3).
Qed.
Lemma poll_same {B} (d1 d2 : Deserialize B) e buf : (forall b, bytes_ok b -> d1 b = d2 b) -> bytes_ok buf -> poll d1 e buf = poll d2 e buf.
Proof. intros E H. unfold poll. rewrite (de_msg_same d1 d2 buf E H). reflexivity. Qed.
Lemma wire_vec_u8 vs : bytes_ok vs -> wire (TVec (TUInt B1)) vs = Some vs /\ valid (TVec (TUInt B1)) vs = true.
Proof.
  intros H. split.
  - cbn [wire]. induction H as [|b bs Hb _ IH]; [reflexivity|]. cbn [map concat_all]. cbn [wire] in *. rewrite IH.
    change (be (isize_bytes B1) b) with [b / 256 ^ 0 mod 256]. rewrite N.pow_0_r, N.div_1_r, N.mod_small by exact Hb. reflexivity.
  - cbn [valid]. apply forallb_forall. intros b I. apply N.ltb_lt. unfold bytes_ok in H. rewrite Forall_forall in H. exact (H _ I).
Qed.

(** The type bytes. *)
Lemma all_bytes (P : N -> bool) : forallb P (map N.of_nat (seq 0 256)) = true -> forall f, f < 256 -> P f = true.
Proof.
  intros H f Hf. rewrite forallb_forall in H. apply H. apply in_map_iff. exists (N.to_nat f). split; [apply N2Nat.id|]. apply in_seq. lia.
Qed.
Definition inb (f : N) (l : list N) : bool := existsb (N.eqb f) l.
Lemma inb_In f l : inb f l = true <-> In f l.
Proof.
  unfold inb. rewrite existsb_exists. split; [intros (x & I & E); apply N.eqb_eq in E; subst; exact I|].
  intros I. exists f. split; [exact I|apply N.eqb_refl].
Qed.
Lemma is_request f : f < 256 -> mt_eqb (mtf_as_type f) Request = inb f request_types.
Proof.
  intros H. apply eqb_prop. revert f H. apply (all_bytes (fun f => Bool.eqb (mt_eqb (mtf_as_type f) Request) (inb f request_types))).
  vm_compute. reflexivity.
Qed.
Lemma is_answer f : f < 256 -> (match mtf_as_type f with Response | Error => true | _ => false end) = inb f answer_types.
Proof.
  intros H. apply eqb_prop. revert f H.
  apply (all_bytes (fun f => Bool.eqb (match mtf_as_type f with Response | Error => true | _ => false end) (inb f answer_types))).
  vm_compute. reflexivity.
Qed.

(** What the endpoints take, and what they let out. *)
Definition right_ids (m : sample_message) : Prop :=
  msg_protocol m = 1 /\ m_service m = 0x1234 /\ msg_interface m = 0 /\ m_method m = 0x0421.
Lemma get_one {V} k (v : V) k' x : map_get N.eqb k' [(k, v)] = Some x <-> k' = k /\ x = v.
Proof.
  cbn. destruct (k' =? k) eqn:E; [apply N.eqb_eq in E|apply N.eqb_neq in E]; split; [intros [= <-]; tauto|intros [_ ->]; reflexivity|discriminate|tauto].
Qed.
Lemma accepted_is e i d (m : sample_message) : e = [(0x1234, i)] -> i_version i = 0 -> i_methods i = [(0x0421, Method)] ->
  (accepted e m d <-> right_ids m /\ sent_by Method (msg_type m) (sender (i_flavor i) d)).
Proof.
  intros -> Hv Hm. unfold accepted, right_ids, passes, e_get, i_get. split.
  - intros (P & i' & G & V & k & K & S). apply get_one in G as [-> ->]. rewrite Hm in K. apply get_one in K as [-> ->]. rewrite V, Hv. tauto.
  - intros ((P & S & I & M) & T). split; [exact P|]. exists i. rewrite get_one, Hv, Hm. repeat split; try assumption.
    exists Method. rewrite get_one. tauto.
Qed.
Lemma service_takes m : h_type (m_header m) < 256 ->
  (accepted service_endpoint m Incoming <-> right_ids m /\ In (h_type (m_header m)) request_types).
Proof.
  intros H. rewrite (accepted_is _ (into_stub (with_method interface_default sample_method)) Incoming m) by reflexivity. cbn [i_flavor into_stub sender other].
  rewrite <- inb_In, <- (is_request _ H). unfold msg_type. split; intros [A B]; (split; [exact A|]).
  - inversion B; reflexivity.
  - destruct (mtf_as_type (h_type (m_header m))); try discriminate B. constructor.
Qed.
Lemma client_takes m : h_type (m_header m) < 256 ->
  (accepted client_endpoint m Incoming <-> right_ids m /\ In (h_type (m_header m)) answer_types).
Proof.
  intros H. rewrite (accepted_is _ (into_proxy (with_method interface_default sample_method)) Incoming m) by reflexivity. cbn [i_flavor into_proxy sender other].
  rewrite <- inb_In, <- (is_answer _ H). unfold msg_type. split; intros [A B]; (split; [exact A|]).
  - inversion B; reflexivity.
  - destruct (mtf_as_type (h_type (m_header m))); try discriminate B; constructor.
Qed.
Lemma service_sends m : right_ids m -> msg_type m = Response -> accepted service_endpoint m Outgoing.
Proof. intros A B. rewrite (accepted_is _ (into_stub (with_method interface_default sample_method)) Outgoing m) by reflexivity. rewrite B. split; [exact A|constructor]. Qed.
Lemma client_sends m : right_ids m -> msg_type m = Request -> accepted client_endpoint m Outgoing.
Proof. intros A B. rewrite (accepted_is _ (into_proxy (with_method interface_default sample_method)) Outgoing m) by reflexivity. rewrite B. split; [exact A|constructor]. Qed.

(** Reading a datagram. *)
Lemma poll_holds e types : (forall m, h_type (m_header m) < 256 -> (accepted e m Incoming <-> right_ids m /\ In (h_type (m_header m)) types)) ->
  forall d, bytes_ok d ->
  (forall m, holds types d m -> exists rest, poll de_vec_u8 e (received d) = POk m rest) /\
  (forall m rest, poll de_vec_u8 e (received d) = POk m rest -> holds types d m /\ message_ok m /\ bytes_ok (m_body m) /\ len (m_body m) <= 48).
Proof.
  intros T d Hd. assert (Hr : bytes_ok (received d)) by (apply bytes_ok_firstn; exact Hd).
  rewrite (poll_same de_vec_u8 de_bytes e _ vec_u8 Hr). split.
  - intros m (L & h & tail & E & HL & H8 & Hh & Hc & P & I & Ty & ->).
    assert (Ht : bytes_ok tail). { unfold received in Hr. rewrite E in Hr. repeat (apply bytes_ok_app in Hr as [_ Hr]). exact Hr. }
    destruct (decode_form 0x1234 0x0421 L h tail ltac:(lia) ltac:(lia) HL Hh Hc Ht) as [D _]. specialize (D H8).
    eexists. apply (proj2 (poll_ok _ _ _ _ _)). unfold received. rewrite E. split; [exact D|].
    apply T; [cbn; apply Hh|]. split; [repeat split; assumption|exact Ty].
  - intros m rest E. apply poll_ok in E as [D A].
    destruct (N.ltb_spec (len (received d)) 16) as [X|X].
    { destruct (proj1 (lying_length _ Hr) X) as (? & ? & ? & Y & _). rewrite D in Y. discriminate. }
    destruct (parse_header _ Hr X) as (s & mm & L & h & tail & Hs & Hm & HL & Hh & Hc & Ht & Eq).
    destruct (decode_form s mm L h tail Hs Hm HL Hh Hc Ht) as [D1 D2]. rewrite <- Eq in D1, D2.
    destruct (N.ltb_spec L 8) as [Y|Y]. { destruct (D2 Y) as (? & ? & ? & Z & _). rewrite D in Z. discriminate. }
    rewrite (D1 Y) in D. injection D as <- <-. apply T in A as [(P & S & I & M) Ty]; [|cbn; apply Hh]. cbn in P, S, I, M, Ty. subst s mm.
    split; [exists L, h, tail; tauto|]. split; [repeat split; try lia; apply Hh|]. cbn [m_body]. split; [apply bytes_ok_firstn; exact Ht|].
    assert (B : len (received d) <= 64) by (unfold received, len; rewrite firstn_length; lia).
    rewrite Eq in B. unfold len in *. rewrite !app_length, !be_length in B. pose proof (header_form_len h) as Q. unfold len in Q. rewrite firstn_length. lia.
Qed.
Lemma holds_ok types d m : bytes_ok d -> holds types d m -> message_ok m /\ bytes_ok (m_body m) /\ len (m_body m) <= 48 /\ right_ids m /\
  canonical_header (m_header m) /\ In (h_type (m_header m)) types.
Proof.
  intros Hd (L & h & tail & E & HL & H8 & Hh & Hc & P & I & Ty & ->). cbn [m_header m_body].
  assert (Hr : bytes_ok (firstn 64 d)) by (apply bytes_ok_firstn; exact Hd).
  assert (Ht : bytes_ok tail). { rewrite E in Hr. repeat (apply bytes_ok_app in Hr as [_ Hr]). exact Hr. }
  split; [repeat split; try (cbn; lia); apply Hh|]. split; [apply bytes_ok_firstn; exact Ht|]. split; [|repeat split; assumption].
  assert (B : (length (firstn 64 d) <= 64)%nat) by (rewrite firstn_length; lia).
  rewrite E in B. rewrite !app_length, !be_length in B. pose proof (header_form_len h) as Q. unfold len in Q. unfold len. rewrite firstn_length. lia.
Qed.
Lemma holds_fun types types' d m m' : bytes_ok d -> holds types d m -> holds types' d m' -> m = m'.
Proof.
  intros Hd H H'. destruct H as (L & h & tail & E & HL & H8 & Hh & Hc & P & I & Ty & ->). destruct H' as (L' & h' & tail' & E' & HL' & H8' & Hh' & Hc' & P' & I' & Ty' & ->).
  assert (Hr : bytes_ok (firstn 64 d)) by (apply bytes_ok_firstn; exact Hd).
  assert (Ht : bytes_ok tail). { rewrite E in Hr. repeat (apply bytes_ok_app in Hr as [_ Hr]). exact Hr. }
  assert (Ht' : bytes_ok tail'). { rewrite E' in Hr. repeat (apply bytes_ok_app in Hr as [_ Hr]). exact Hr. }
  destruct (decode_form 0x1234 0x0421 L h tail ltac:(lia) ltac:(lia) HL Hh Hc Ht) as [D _].
  destruct (decode_form 0x1234 0x0421 L' h' tail' ltac:(lia) ltac:(lia) HL' Hh' Hc' Ht') as [D' _].
  specialize (D H8). specialize (D' H8'). rewrite <- E in D. rewrite <- E' in D'. rewrite D in D'. injection D' as -> X. rewrite X. reflexivity.
Qed.
Lemma process_same e m room : message_ok m -> bytes_ok (m_body m) -> len (m_body m) <= 48 -> 64 <= room -> accepted e m Outgoing ->
  exists n r, process ser_vec_u8 e m (mkW [] room) = ROk n (mkW (bytes_message_form m) r).
Proof.
  intros Hm Hb Hl Hr A. destruct (wire_vec_u8 _ Hb) as [W V].
  assert (X := process_writes (TVec (TUInt B1)) e m (m_body m) [] room Hm V W A ltac:(lia) ltac:(lia)).
  eexists _, _. exact X.
Qed.

(** The service. *)
Lemma service_answers room d a : 64 <= room -> bytes_ok d ->
  (forall m, holds request_types d m ->
     service_step room true (SRecv (Some (a, d)) true) = Some (true, SAnswered m (answer_to m) a (bytes_message_form (answer_to m)))) /\
  ((~ exists m, holds request_types d m) -> forall ok, service_step room true (SRecv (Some (a, d)) ok) = Some (false, SPanic)).
Proof.
  intros Hr Hd. destruct (poll_holds service_endpoint request_types service_takes d Hd) as [P1 P2]. split.
  - intros m H. destruct (P1 m H) as [rest E]. cbn [service_step]. rewrite E.
    destruct (holds_ok _ _ _ Hd H) as (Hm & Hb & Hl & R & Hc & _).
    change (msg_with_type m Response) with (answer_to m).
    destruct (process_same service_endpoint (answer_to m) room) as (n & r & X); try assumption.
    + destruct m as [s mm h b]. destruct Hm as (X1 & X2 & X3 & X4 & X5 & X6 & X7 & X8). repeat split; assumption.
    + apply service_sends; [exact R|reflexivity].
    + rewrite X. reflexivity.
  - intros N ok. cbn [service_step]. destruct (poll de_vec_u8 service_endpoint (received d)) as [m rest|e rest| |]; try reflexivity.
    destruct (P2 _ _ eq_refl) as [H _]. destruct N. exists m. exact H.
Qed.
(** The client. *)
Lemma client_listens room d s : bytes_ok d ->
  (forall m, holds answer_types d m -> client_step room (Awaiting s) (CRecv (Some d)) = Some (Asking s, CHeard m)) /\
  ((~ exists m, holds answer_types d m) -> client_step room (Awaiting s) (CRecv (Some d)) = Some (Stopped, CPanic)).
Proof.
  intros Hd. destruct (poll_holds client_endpoint answer_types client_takes d Hd) as [P1 P2]. split.
  - intros m H. destruct (P1 m H) as [rest E]. cbn [client_step]. rewrite E. reflexivity.
  - intros N. cbn [client_step]. destruct (poll de_vec_u8 client_endpoint (received d)) as [m rest|e rest| |]; try reflexivity.
    destruct (P2 _ _ eq_refl) as [H _]. destruct N. exists m. exact H.
Qed.

(** ** Histories *)
Lemma request_ok k : let m := request_no k in
  message_ok m /\ bytes_ok (m_body m) /\ len (m_body m) <= 48 /\ right_ids m /\ canonical_header (m_header m).
Proof.
  repeat split; cbn; try lia; try (repeat constructor; lia). vm_compute. discriminate.
Qed.
Lemma form_bytes m : message_ok m -> bytes_ok (m_body m) -> bytes_ok (bytes_message_form m).
Proof.
  intros (_ & _ & Hh) Hb. unfold bytes_message_form, message_form, header_form. destruct Hh as (X3 & X4 & X5 & X6 & X7 & X8).
  repeat (apply bytes_ok_app; split); try (apply be_is_byte); try exact Hb. repeat constructor; try assumption. apply rc_small. exact X8.
Qed.
Lemma holds_form types m : message_ok m -> bytes_ok (m_body m) -> len (m_body m) <= 48 -> right_ids m -> canonical_header (m_header m) ->
  In (h_type (m_header m)) types -> holds types (bytes_message_form m) m /\ bytes_ok (bytes_message_form m).
Proof.
  intros (Hs & Hm & Hh) Hb Hl (P & S & I & M) Hc Ty. destruct m as [s mm h b]. cbn [m_service m_method m_header m_body] in *. subst s mm. split.
  - exists (8 + len b), h, b. split; [|repeat split; try assumption; try lia; try apply Hh].
    + apply firstn_all2. unfold message_form. rewrite !app_length, !be_length. pose proof (header_form_len h) as Q. unfold len in *. lia.
    + rewrite firstn_all2; [reflexivity|]. unfold len. lia.
  - apply form_bytes; [repeat split; try lia; apply Hh|exact Hb].
Qed.
Lemma answer_holds types d m : bytes_ok d -> holds types d m -> In 0x80 answer_types ->
  holds answer_types (bytes_message_form (answer_to m)) (answer_to m) /\ bytes_ok (bytes_message_form (answer_to m)).
Proof.
  intros Hd H I. destruct (holds_ok _ _ _ Hd H) as (Hm & Hb & Hl & R & Hc & _).
  apply holds_form; try assumption. destruct m as [s mm h b]. destruct Hm as (X1 & X2 & X3 & X4 & X5 & X6 & X7 & X8). repeat split; assumption.
Qed.
Lemma request_holds k : holds request_types (bytes_message_form (request_no k)) (request_no k) /\ bytes_ok (bytes_message_form (request_no k)).
Proof. destruct (request_ok k) as (A & B & C & D & E). apply holds_form; try assumption. left. reflexivity. Qed.

(** Reading traces. *)
Lemma asked_app t1 t2 : asked (t1 ++ t2) = asked t1 ++ asked t2.
Proof. induction t1 as [|[e [[m d|m|]|o]] t1 IH]; cbn; rewrite ?IH; reflexivity. Qed.
Lemma heard_app t1 t2 : heard (t1 ++ t2) = heard t1 ++ heard t2.
Proof. induction t1 as [|[e [[m d|m|]|o]] t1 IH]; cbn; rewrite ?IH; reflexivity. Qed.
Lemma client_sent_app t1 t2 : client_sent (t1 ++ t2) = client_sent t1 ++ client_sent t2.
Proof. induction t1 as [|[e [[m d|m|]|o]] t1 IH]; cbn; rewrite ?IH; reflexivity. Qed.
Lemma client_received_app t1 t2 : client_received (t1 ++ t2) = client_received t1 ++ client_received t2.
Proof. induction t1 as [|[[[b|[d|]]|[r b]] o] t1 IH]; cbn; rewrite ?IH; reflexivity. Qed.
Lemma service_received_app t1 t2 : service_received (t1 ++ t2) = service_received t1 ++ service_received t2.
Proof. induction t1 as [|[[c|[[p|] b]] o] t1 IH]; cbn; rewrite ?IH; reflexivity. Qed.
Lemma service_sent_app t1 t2 : service_sent (t1 ++ t2) = service_sent t1 ++ service_sent t2.
Proof. induction t1 as [|[e [o|[m r a d|]]] t1 IH]; cbn; rewrite ?IH; reflexivity. Qed.
Ltac apps := rewrite ?asked_app, ?heard_app, ?client_sent_app, ?client_received_app, ?service_received_app, ?service_sent_app in *.

(** What the client sends. *)
Lemma next_session n : snd (session_increment (1 + N.of_nat n mod 65535)) = 1 + N.of_nat (S n) mod 65535 /\
  fst (session_increment (1 + N.of_nat n mod 65535)) = 1 + N.of_nat n mod 65535.
Proof.
  destruct (increment_full (1 + N.of_nat n mod 65535) ltac:(lia)) as (E1 & E2 & _). rewrite E1, E2. split; [|reflexivity].
  destruct (_ =? 0xFFFF) eqn:E; [apply N.eqb_eq in E|apply N.eqb_neq in E]; lia.
Qed.
Lemma client_sending room s ok k : 64 <= room -> s = 1 + N.of_nat k mod 65535 ->
  client_step room (Asking s) (CSend ok) =
  Some (if ok then (Awaiting (1 + N.of_nat (S k) mod 65535), CAsked (request_no k) (bytes_message_form (request_no k))) else (Stopped, CPanic)).
Proof.
  intros Hr ->. destruct (next_session k) as [E1 E2]. cbn [client_step].
  destruct (session_increment (1 + N.of_nat k mod 65535)) as [id s'] eqn:E. cbn in E1, E2. subst id s'.
  change (msg_with_session first_request (1 + N.of_nat k mod 65535)) with (request_no k).
  destruct (request_ok k) as (A & B & C & D & F).
  destruct (process_same client_endpoint (request_no k) room A B C Hr (client_sends _ D eq_refl)) as (n & r & X). rewrite X. destruct ok; reflexivity.
Qed.
Lemma asked_are room tr w : 64 <= room -> history room tr w ->
  asked tr = map request_no (seq 0 (length (asked tr))) /\ client_sent tr = map bytes_message_form (asked tr) /\
  forall s, session_of (w_client w) = Some s -> s = 1 + N.of_nat (length (asked tr)) mod 65535.
Proof.
  intros Hr H. induction H as [|tr w e w' o H (I1 & I2 & I3) ST]; [repeat split; intros s [= <-]; reflexivity|].
  apps. destruct e as [c|s]; cbn [sample_step] in ST.
  - destruct (client_step room (w_client w) c) as [[c' oc]|] eqn:E; [|discriminate]. injection ST as <- <-. cbn [w_client].
    destruct (w_client w) as [s|s|], c as [ok|[d|]]; try discriminate E.
    + rewrite (client_sending room s ok (length (asked tr)) Hr (I3 _ eq_refl)) in E. destruct ok; injection E as <- <-; cbn [asked client_sent].
      * rewrite app_length, seq_app, !map_app, <- I1, I2. cbn [length seq map]. repeat split. intros s' [= <-]. repeat f_equal. lia.
      * rewrite !app_nil_r. repeat split; try assumption. discriminate.
    + cbn [client_step] in E. destruct (poll de_vec_u8 client_endpoint (received d)); injection E as <- <-; cbn [asked client_sent]; rewrite !app_nil_r;
        (repeat split; try assumption; intros s' X; cbn in X; try discriminate X; apply I3; exact X).
    + injection E as <- <-. cbn [asked client_sent]. rewrite !app_nil_r. repeat split; try assumption. discriminate.
  - destruct (service_step room (w_service w) s) as [[c' oc]|] eqn:E; [|discriminate]. injection ST as <- <-. cbn [w_client asked client_sent]. rewrite !app_nil_r. tauto.
Qed.

(** What was received and what came of it. *)
Lemma client_books room tr w : history room tr w -> Forall bytes_ok (client_received tr) ->
  match w_client w with
  | Asking _ => length (asked tr) = length (heard tr)
  | Awaiting _ => length (asked tr) = S (length (heard tr))
  | Stopped => True
  end /\ (w_client w <> Stopped -> Forall2 (holds answer_types) (client_received tr) (heard tr)).
Proof.
  intros H. induction H as [|tr w e w' o H IH ST]; intros B; [split; [reflexivity|constructor]|].
  apps. apply Forall_app in B as [B B']. destruct (IH B) as [I1 I2]. clear IH. destruct e as [c|s]; cbn [sample_step] in ST.
  - destruct (client_step room (w_client w) c) as [[c' oc]|] eqn:E; [|discriminate]. injection ST as <- <-. cbn [w_client].
    destruct (w_client w) as [s|s|], c as [ok|[d|]]; try discriminate E.
    + cbn [client_step] in E. destruct (session_increment s) as [id s']. destruct (process ser_vec_u8 client_endpoint _ _) as [n b|er b|]; [destruct ok| |]; injection E as <- <-;
        cbn [asked heard client_received]; rewrite ?app_nil_r; (split; [try exact I|try (intros X; destruct (X eq_refl))]).
      * rewrite app_length. cbn [length]. lia.
      * intros _. apply I2. discriminate.
    + cbn [client_received] in B'. inversion B' as [|? ? Bd _]; subst. destruct (client_listens room d s Bd) as [L1 L2].
      cbn [client_step] in E, L1, L2. destruct (poll_holds client_endpoint answer_types client_takes d Bd) as [_ P].
      destruct (poll de_vec_u8 client_endpoint (received d)) as [m rest|er rest| |]; injection E as <- <-; cbn [asked heard client_received]; rewrite ?app_nil_r;
        (split; [try exact I|intros X; try (destruct (X eq_refl))]).
      * rewrite app_length. cbn [length]. lia.
      * apply Forall2_app; [apply I2; discriminate|]. constructor; [apply (P _ _ eq_refl)|constructor].
    + injection E as <- <-. split; [exact I|intros X; destruct (X eq_refl)].
  - destruct (service_step room (w_service w) s) as [[c' oc]|] eqn:E; [|discriminate]. injection ST as <- <-.
    cbn [w_client asked heard client_received]. rewrite !app_nil_r. tauto.
Qed.
Definition answered (p q : N * list N) : Prop :=
  fst p = fst q /\ exists m, holds request_types (snd p) m /\ snd q = bytes_message_form (answer_to m).
Lemma service_books room tr w : 64 <= room -> history room tr w -> Forall (fun p => bytes_ok (snd p)) (service_received tr) -> w_service w = true ->
  Forall2 answered (service_received tr) (service_sent tr).
Proof.
  intros Hr H. induction H as [|tr w e w' o H IH ST]; intros B U; [constructor|].
  apps. apply Forall_app in B as [B B']. specialize (IH B). destruct e as [c|s]; cbn [sample_step] in ST.
  - destruct (client_step room (w_client w) c) as [[c' oc]|] eqn:E; [|discriminate]. injection ST as <- <-. cbn in *. rewrite !app_nil_r. tauto.
  - destruct (service_step room (w_service w) s) as [[c' oc]|] eqn:E; [|discriminate]. injection ST as <- <-. cbn [w_service] in U. subst c'.
    destruct (w_service w) eqn:W; [|discriminate E]. specialize (IH eq_refl). destruct s as [[[a d]|] ok]; [|discriminate E].
    cbn [service_received] in B' |- *. inversion B' as [|? ? Bd _]; subst. cbn in Bd.
    destruct (service_answers room d a Hr Bd) as [A1 _]. destruct (poll_holds service_endpoint request_types service_takes d Bd) as [_ P].
    cbn [service_step] in E. destruct (poll de_vec_u8 service_endpoint (received d)) as [m rest|er rest| |] eqn:Q; try discriminate E.
    destruct (P _ _ eq_refl) as [Hm _]. specialize (A1 _ Hm). cbn [service_step] in A1. rewrite Q in A1.
    destruct (process ser_vec_u8 service_endpoint (msg_with_type m Response) (mkW [] room)) as [n b|er b|]; try discriminate A1.
    destruct ok; [|discriminate E]. rewrite A1 in E. injection E as <-.
    cbn [service_sent]. apply Forall2_app; [exact IH|]. constructor; [|constructor]. split; [reflexivity|]. exists m. split; [exact Hm|reflexivity].
Qed.

(** ** Both programs and a network *)
Lemma made_up_prev a tr x : nothing_made_up a (tr ++ [x]) -> nothing_made_up a tr.
Proof. intros H t1 t2 E. apply (H t1 (t2 ++ [x])). rewrite E, app_assoc. reflexivity. Qed.
Lemma others_prev a tr x : others_ask a (tr ++ [x]) -> others_ask a tr.
Proof. intros H b d I. apply (H b d). apps. apply in_or_app. left. exact I. Qed.
Lemma with_addr_in a l d : In d (with_addr a l) <-> In (a, d) l.
Proof.
  unfold with_addr. rewrite in_map_iff. split.
  - intros ([b d'] & <- & I). apply filter_In in I as [I E]. apply N.eqb_eq in E. cbn in E. subst. exact I.
  - intros I. exists (a, d). split; [reflexivity|]. apply filter_In. split; [exact I|apply N.eqb_refl].
Qed.
Lemma service_got room a tr w : 64 <= room -> history room tr w -> nothing_made_up a tr -> others_ask a tr ->
  Forall (fun p => bytes_ok (snd p) /\ exists m, holds request_types (snd p) m /\ (fst p = a -> In m (asked tr))) (service_received tr).
Proof.
  intros Hr H M O. apply Forall_forall. intros [b d] I. cbn. destruct (asked_are room tr w Hr H) as (A1 & A2 & _).
  assert (C : b = a -> bytes_ok d /\ exists m, holds request_types d m /\ In m (asked tr)).
  { intros ->. destruct (M tr [] ltac:(symmetry; apply app_nil_r)) as [M1 _]. apply with_addr_in in I. apply M1 in I. rewrite A2 in I.
    apply in_map_iff in I as (m & <- & I). pose proof I as I'. rewrite A1 in I'. apply in_map_iff in I' as (k & <- & _).
    destruct (request_holds k) as [X Y]. split; [exact Y|]. exists (request_no k). tauto. }
  destruct (O b d I) as [->|[Hb [m Hm]]]; [destruct (C eq_refl) as (X & m & Y & Z); split; [exact X|]; exists m; tauto|].
  destruct (N.eq_dec b a) as [->|Ne]; [destruct (C eq_refl) as (X & m' & Y & Z); split; [exact X|]; exists m'; tauto|].
  split; [exact Hb|]. exists m. split; [exact Hm|]. intros E. destruct (Ne E).
Qed.
Lemma client_got room a tr w : 64 <= room -> history room tr w -> nothing_made_up a tr -> others_ask a tr -> w_service w = true ->
  forall d, In d (with_addr a (service_sent tr)) -> bytes_ok d /\ exists m, In m (asked tr) /\ holds answer_types d (answer_to m).
Proof.
  intros Hr H M O U d I. apply with_addr_in in I. assert (G := service_got room a tr w Hr H M O).
  assert (F := service_books room tr w Hr H ltac:(eapply Forall_impl; [|exact G]; intros p X; apply X) U).
  apply In_nth_error in I as [n I].
  assert (X : exists p, nth_error (service_received tr) n = Some p /\ answered p (a, d)).
  { clear G. revert n I. induction F as [|p q l1 l2 A F IH]; intros [|n] E; cbn in E; try discriminate E; [injection E as ->; exists p; split; [reflexivity|exact A]|exact (IH n E)]. }
  destruct X as (p & E & Q & m & Hm & Ed). cbn in Q, Ed. subst d. rewrite Forall_forall in G. destruct (G p (nth_error_In _ _ E)) as (B & m' & Hm' & In').
  rewrite (holds_fun _ _ _ _ _ B Hm Hm') in *. destruct (answer_holds _ _ _ B Hm' ltac:(left; reflexivity)) as [Z1 Z2].
  split; [exact Z2|]. exists m'. split; [exact (In' Q)|exact Z1].
Qed.
Lemma io_prev (tr : list (event * obs)) x : Forall (fun p => io_ok (fst p)) (tr ++ [x]) -> Forall (fun p => io_ok (fst p)) tr /\ io_ok (fst x).
Proof. intros H. apply Forall_app in H as [H1 H2]. inversion H2; subst. tauto. Qed.
Lemma stays_up room a tr w : 64 <= room -> history room tr w -> Forall (fun p => io_ok (fst p)) tr -> nothing_made_up a tr -> others_ask a tr ->
  w_client w <> Stopped /\ w_service w = true /\ incl (heard tr) (map answer_to (asked tr)).
Proof.
  intros Hr H. induction H as [|tr w e w' o H IH ST]; intros OK M O; [split; [discriminate|split; [reflexivity|intros x []]]|].
  pose proof OK as OK'. apply io_prev in OK as [OK Oe]. cbn in Oe. pose proof (made_up_prev _ _ _ M) as M0. pose proof (others_prev _ _ _ O) as O0.
  destruct (IH OK M0 O0) as (C & U & L). clear IH. destruct (asked_are room tr w Hr H) as (A1 & A2 & A3).
  assert (L' : forall x, incl (heard tr) (map answer_to (asked tr ++ x))) by (intros x; rewrite map_app; apply incl_appl; exact L).
  apps. destruct e as [c|s]; cbn [sample_step] in ST.
  - destruct (client_step room (w_client w) c) as [[c' oc]|] eqn:E; [|discriminate]. injection ST as <- <-. cbn [w_client w_service].
    destruct (w_client w) as [s|s|], c as [ok|[d|]]; try discriminate E; [| |destruct Oe; reflexivity].
    + cbn in Oe. subst ok. rewrite (client_sending room s true (length (asked tr)) Hr (A3 _ eq_refl)) in E. injection E as <- <-.
      cbn [asked heard]. rewrite app_nil_r. split; [discriminate|]. split; [exact U|apply L'].
    + destruct (M (tr ++ [(EClient (CRecv (Some d)), OClient oc)]) [] ltac:(symmetry; apply app_nil_r)) as [_ M2]. apps.
      assert (X : In d (with_addr a (service_sent tr ++ []))) by (apply M2; apply in_or_app; right; left; reflexivity). rewrite app_nil_r in X.
      destruct (client_got room a tr w Hr H M0 O0 U d X) as (B & m & Im & Hm). rewrite (proj1 (client_listens room d s B) _ Hm) in E. injection E as <- <-.
      split; [discriminate|]. split; [exact U|]. cbn [asked heard]. rewrite app_nil_r. intros x I. apply in_app_or in I as [I|[<-|[]]]; [apply L; exact I|].
      apply in_map. exact Im.
  - destruct (service_step room (w_service w) s) as [[c' oc]|] eqn:E; [|discriminate]. injection ST as <- <-. cbn [w_client w_service].
    rewrite U in E. destruct s as [[[b d]|] ok]; [|destruct Oe as [Oe _]; destruct Oe; reflexivity]. destruct Oe as [_ Oe]. subst ok.
    assert (X : bytes_ok d /\ exists m, holds request_types d m).
    { destruct (O b d ltac:(apps; apply in_or_app; right; left; reflexivity)) as [->|X]; [|exact X].
      destruct (M (tr ++ [(EService (SRecv (Some (a, d)) true), OService oc)]) [] ltac:(symmetry; apply app_nil_r)) as [M1 _]. apps.
      assert (X : In d (client_sent tr ++ [])) by (apply M1; apply with_addr_in; apply in_or_app; right; left; reflexivity).
      rewrite app_nil_r, A2, A1, map_map in X. apply in_map_iff in X as (k & <- & _). destruct (request_holds k) as [Y Z]. split; [exact Z|]. eexists. exact Y. }
    destruct X as [B [m Hm]]. rewrite (proj1 (service_answers room d b Hr B) _ Hm) in E. injection E as <- <-.
    cbn [asked heard]. rewrite !app_nil_r. repeat split; assumption.
Qed.

Lemma in_order_made_up a tr : in_order a tr -> nothing_made_up a tr.
Proof.
  intros H t1 t2 E. destruct (H t1 t2 E) as [[l1 E1] [l2 E2]]. rewrite E1, E2. split; apply incl_appl, incl_refl.
Qed.
Lemma with_addr_answered a l1 l2 : Forall2 answered l1 l2 ->
  Forall2 (fun d r => exists m, holds request_types d m /\ r = bytes_message_form (answer_to m)) (with_addr a l1) (with_addr a l2).
Proof.
  intros H. unfold with_addr. induction H as [|p q l1 l2 [E A] H IH]; [constructor|]. cbn [filter]. rewrite E.
  destruct (fst q =? a); [|exact IH]. cbn [map]. constructor; [exact A|exact IH].
Qed.
Lemma answers_of ks rs : Forall2 (fun d r => exists m, holds request_types d m /\ r = bytes_message_form (answer_to m)) (map (fun k => bytes_message_form (request_no k)) ks) rs ->
  rs = map (fun k => bytes_message_form (answer_to (request_no k))) ks.
Proof.
  revert rs. induction ks as [|k ks IH]; intros rs H; cbn in H; inversion H as [|? ? ? ? (m & Hm & ->) H']; subst; [reflexivity|].
  cbn. rewrite (IH _ H'). destruct (request_holds k) as [X Y]. rewrite (holds_fun _ _ _ _ _ Y Hm X). reflexivity.
Qed.
Lemma heard_of ks hs : Forall2 (holds answer_types) (map (fun k => bytes_message_form (answer_to (request_no k))) ks) hs ->
  hs = map (fun k => answer_to (request_no k)) ks.
Proof.
  revert hs. induction ks as [|k ks IH]; intros hs H; cbn in H; inversion H as [|? ? ? ? Hm H']; subst; [reflexivity|].
  cbn. rewrite (IH _ H'). destruct (request_holds k) as [X Y]. destruct (answer_holds _ _ _ Y X ltac:(left; reflexivity)) as [Z1 Z2].
  rewrite (holds_fun _ _ _ _ _ Z2 Hm Z1). reflexivity.
Qed.
Lemma prefix_map {A B} (f : A -> B) l1 ks : prefix l1 (map f ks) -> exists k1 k2, ks = k1 ++ k2 /\ l1 = map f k1.
Proof.
  intros [l E]. exists (firstn (length l1) ks), (skipn (length l1) ks). split; [symmetry; apply firstn_skipn|].
  rewrite <- firstn_map, E, firstn_app, Nat.sub_diag, firstn_all. cbn. rewrite app_nil_r. reflexivity.
Qed.
Lemma all_answered room a tr w : 64 <= room -> history room tr w -> Forall (fun p => io_ok (fst p)) tr -> in_order a tr -> others_ask a tr ->
  exists n,
  asked tr = map request_no (seq 0 n) /\ prefix (heard tr) (map answer_to (asked tr)) /\
  (length (heard tr) = n /\ w_client w = Asking (1 + N.of_nat n mod 65535) \/ S (length (heard tr)) = n /\ w_client w = Awaiting (1 + N.of_nat n mod 65535)) /\
  (with_addr a (service_received tr) = client_sent tr -> client_received tr = with_addr a (service_sent tr) -> heard tr = map answer_to (asked tr)).
Proof.
  intros Hr H OK IO O. pose proof (in_order_made_up _ _ IO) as M. destruct (stays_up room a tr w Hr H OK M O) as (C & U & L).
  destruct (asked_are room tr w Hr H) as (A1 & A2 & A3). exists (length (asked tr)). split; [exact A1|].
  assert (G := service_got room a tr w Hr H M O).
  assert (F := with_addr_answered a _ _ (service_books room tr w Hr H ltac:(eapply Forall_impl; [|exact G]; intros p X; apply X) U)).
  destruct (IO tr [] ltac:(symmetry; apply app_nil_r)) as [P1 P2].
  assert (B : Forall bytes_ok (client_received tr)).
  { apply Forall_forall. intros d I. destruct (M tr [] ltac:(symmetry; apply app_nil_r)) as [_ M2]. destruct (client_got room a tr w Hr H M O U d (M2 _ I)) as [X _]. exact X. }
  destruct (client_books room tr w H B) as [CB1 CB2]. specialize (CB2 C).
  set (n := length (asked tr)) in *. rewrite A2, A1, map_map in P1. destruct (prefix_map _ _ _ P1) as (k1 & k2 & K & R). rewrite R in F.
  apply answers_of in F. rewrite F in P2. destruct (prefix_map _ _ _ P2) as (k3 & k4 & K' & R'). rewrite R' in CB2. apply heard_of in CB2.
  split; [|split].
  - exists (map (fun k => answer_to (request_no k)) (k4 ++ k2)). rewrite A1, map_map, CB2, <- map_app, K, K', app_assoc. reflexivity.
  - destruct (w_client w) as [s|s|]; [left|right|destruct (C eq_refl)]; (split; [unfold n; lia|]); rewrite (A3 _ eq_refl); reflexivity.
  - intros E1 E2. rewrite CB2, A1, map_map. f_equal. rewrite R, A2, A1, map_map in E1. rewrite R', F in E2.
    apply (f_equal (@length _)) in E1, E2. rewrite !map_length in E1, E2. rewrite K in E1. rewrite K' in E2. rewrite app_length in E1, E2.
    rewrite K, K'. destruct k2; [|cbn in E1; lia]. destruct k4; [|cbn in E2; lia]. rewrite !app_nil_r. reflexivity.
Qed.
Lemma run_history room es : forall t0 w w' tr, history room t0 w -> run room w es = Some (w', tr) -> history room (t0 ++ tr) w'.
Proof.
  induction es as [|e es IH]; intros t0 w w' tr H E; cbn in E; [injection E as <- <-; rewrite app_nil_r; exact H|].
  destruct (sample_step room w e) as [[w1 o]|] eqn:ST; [|discriminate]. destruct (run room w1 es) as [[w2 t]|] eqn:R; [|discriminate].
  injection E as <- <-. change ((e, o) :: t) with ([(e, o)] ++ t). rewrite app_assoc. eapply IH; [econstructor; eassumption|exact R].
Qed.
