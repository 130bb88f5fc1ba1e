(** Proofs of the statements in PropertiesMessage.v. *)
From Coq Require Import List NArith ZArith Bool Lia ZifyBool ZifyNat ZifyN.
From Verif Require Import BytesModel UniverseModel WireSpec BytesProofs UniverseProofs StringProofs
  PrimitivesModel PrimitivesSpec PrimitivesProofs PrimitivesTheorems MessageModel MessageSpec MessageProofs.
Import ListNotations.
Open Scope N_scope.
Ltac Zify.zify_post_hook ::= Z.div_mod_to_equations.
Arguments N.add : simpl never. Arguments N.mul : simpl never. Arguments N.pow : simpl never.
Arguments N.of_nat : simpl never. Arguments N.sub : simpl never.
Arguments N.div : simpl never. Arguments N.modulo : simpl never.

Lemma body_emits t (v : value t) payload : valid t v = true -> wire t v = Some payload -> emits (ser t) v payload.
Proof. intros Hv E. assert (H := ser_wire t v Hv). unfold meets in H. rewrite E in H. exact H. Qed.

Lemma form_length s m h payload : len (message_form s m h payload) = 16 + len payload.
Proof. unfold message_form. rewrite !len_app, !be_len, header_form_len. cbn. lia. Qed.

Lemma form_unfold s m h payload : 
  be 2 s ++ be 2 m ++ be 4 (len (header_form h) + len payload) ++ header_form h ++ payload = message_form s m h payload.
Proof. unfold message_form. rewrite header_form_len. reflexivity. Qed.

Lemma layout t (m : message header (value t)) payload data room :
  message_ok m -> valid t (m_body m) = true -> wire t (m_body m) = Some payload -> 8 + len payload < 2 ^ 32 ->
  let form := message_form (m_service m) (m_method m) (m_header m) payload in
  len form = 16 + len payload /\
  size_hint (ser_msg (ser t)) m = 16 + len payload /\
  serialize (ser_msg (ser t)) m (mkW data room) =
  if 16 + len payload <=? room then WOk (16 + len payload) (mkW (data ++ form) (room - (16 + len payload))) else WPanic.
Proof.
  intros (Hs & Hm & Hh) Hv Hw Hl form.
  assert (Eh := emits_header _ Hh). assert (Eb := body_emits t _ _ Hv Hw).
  assert (F := form_length (m_service m) (m_method m) (m_header m) payload). fold form in F.
  split; [exact F|]. split.
  - unfold ser_msg. rewrite (message_hint _ _ m _ _ Eh Eb), header_form_len. lia.
  - assert (W := message_writes ser_header (ser t) m _ _ Eh Eb). rewrite header_form_len in W at 1. specialize (W Hl).
    rewrite form_unfold in W. fold form in W. specialize (W (mkW data room)).
    unfold ser_msg. rewrite W. rewrite F. cbn [w_room]. unfold appended. rewrite F. reflexivity.
Qed.

Lemma too_long t (m : message header (value t)) payload data room :
  message_ok m -> valid t (m_body m) = true -> wire t (m_body m) = Some payload -> 2 ^ 32 <= 8 + len payload ->
  serialize (ser_msg (ser t)) m (mkW data room) =
  if 4 <=? room
  then WErr (InvalidLength (8 + len payload) (2 ^ 32 - 1))
            (mkW (data ++ be 2 (m_service m) ++ be 2 (m_method m)) (room - 4))
  else WPanic.
Proof.
  intros (Hs & Hm & Hh) Hv Hw Hl.
  assert (Eh := emits_header _ Hh). assert (Eb := body_emits t _ _ Hv Hw).
  assert (W := message_fails ser_header (ser t) m _ _ Eh Eb). rewrite !header_form_len in W. specialize (W Hl (mkW data room)).
  unfold ser_msg. rewrite W. cbn [w_room]. unfold appended. rewrite len_app, !be_len. reflexivity.
Qed.

Lemma unencodable t (m : message header (value t)) b n b' :
  message_ok m -> valid t (m_body m) = true -> wire t (m_body m) = None -> serialize (ser_msg (ser t)) m b <> WOk n b'.
Proof.
  intros (Hs & Hm & Hh) Hv Hw E.
  destruct (message_unencodable ser_header t m _ (emits_header _ Hh) Hv Hw) as (pre & r & x & _ & Hf).
  unfold ser_msg in E. rewrite Hf in E. destruct (len pre <=? w_room b); discriminate.
Qed.

Lemma to_bytes_form t (m : message header (value t)) payload room :
  message_ok m -> valid t (m_body m) = true -> wire t (m_body m) = Some payload -> 8 + len payload < 2 ^ 32 -> 16 + len payload <= room ->
  msg_to_bytes ser_header (ser t) room m = BOk (message_form (m_service m) (m_method m) (m_header m) payload).
Proof.
  intros Hok Hv Hw Hl Hr. unfold msg_to_bytes. destruct (layout t m payload [] room Hok Hv Hw Hl) as (_ & _ & E).
  unfold ser_msg in E. rewrite E. destruct (N.leb_spec (16 + len payload) room); [reflexivity|lia].
Qed.

Lemma to_bytes_fails t (m : message header (value t)) room :
  message_ok m -> valid t (m_body m) = true -> 4 <= room ->
  (forall payload, wire t (m_body m) = Some payload -> 2 ^ 32 <= 8 + len payload ->
     msg_to_bytes ser_header (ser t) room m = BErr (InvalidLength (8 + len payload) (2 ^ 32 - 1))) /\
  (wire t (m_body m) = None -> forall bytes, msg_to_bytes ser_header (ser t) room m <> BOk bytes).
Proof.
  intros Hok Hv Hr. unfold msg_to_bytes. split.
  - intros payload Hw Hl. assert (E := too_long t m payload [] room Hok Hv Hw Hl). unfold ser_msg in E. rewrite E.
    destruct (N.leb_spec 4 room); [reflexivity|lia].
  - intros Hw bytes. destruct (serialize (ser_message ser_header (ser t)) m (mkW [] room)) as [n b|e b|] eqn:E; try discriminate.
    destruct (unencodable t m _ n b Hok Hv Hw E).
Qed.

Lemma round_trip_msg t (m : message header (value t)) payload rest :
  message_ok m -> canonical_header (m_header m) -> framed t = true -> valid t (m_body m) = true ->
  nul_free t (m_body m) = true -> wire t (m_body m) = Some payload -> 8 + len payload < 2 ^ 32 ->
  de_msg (de t) (message_form (m_service m) (m_method m) (m_header m) payload ++ rest) = DOk m rest.
Proof.
  intros (Hs & Hm & Hh) Hc Hf Hv Hz Hw Hl. rewrite <- form_unfold.
  apply (message_reads de_header (de t)); try assumption.
  - apply header_reads; assumption.
  - apply (proj2 (round_trip t)); assumption.
Qed.

Lemma bytes_round_trip t (m : message header (value t)) payload room rest :
  message_ok m -> canonical_header (m_header m) -> framed t = true -> valid t (m_body m) = true ->
  nul_free t (m_body m) = true -> wire t (m_body m) = Some payload -> 8 + len payload < 2 ^ 32 -> 16 + len payload <= room ->
  exists bytes, msg_to_bytes ser_header (ser t) room m = BOk bytes /\ msg_from_bytes de_header (de t) (bytes ++ rest) = DOk m rest.
Proof.
  intros Hok Hc Hf Hv Hz Hw Hl Hr. eexists. split; [apply to_bytes_form; eassumption|]. apply (round_trip_msg t m payload rest); assumption.
Qed.

(** A message with a non-canonical return code comes back with the canonical one. *)
Lemma round_trip_code t (m : message header (value t)) payload rest :
  message_ok m -> framed t = true -> valid t (m_body m) = true ->
  nul_free t (m_body m) = true -> wire t (m_body m) = Some payload -> 8 + len payload < 2 ^ 32 ->
  de_msg (de t) (message_form (m_service m) (m_method m) (m_header m) payload ++ rest)
  = DOk (msg_with_code m (rc_from_u8 (rc_as_u8 (msg_code m)))) rest.
Proof.
  intros (Hs & Hm & Hh) Hf Hv Hz Hw Hl.
  set (c := rc_from_u8 (rc_as_u8 (msg_code m))).
  assert (Hb : rc_as_u8 (msg_code m) < 256) by (apply rc_small; apply Hh).
  destruct (rc_table _ Hb) as (E & Hc & _). fold c in E, Hc.
  assert (F : message_form (m_service m) (m_method m) (m_header m) payload
            = message_form (m_service m) (m_method m) (h_with_code (m_header m) c) payload).
  { unfold message_form, header_form. cbn [h_with_code h_client h_session h_protocol h_interface h_type h_code].
    rewrite E. reflexivity. }
  rewrite F. apply (round_trip_msg t (msg_with_code m c)); try assumption.
  split; [exact Hs|]. split; [exact Hm|].
  destruct Hh as (A1 & A2 & A3 & A4 & A5 & A6). repeat split; try assumption.
  cbn. destruct c; cbn [canonical_code valid_code] in *; lia.
Qed.

Lemma generic_round_trip th tb (m : message (value th) (value tb)) xh xb data room rest :
  m_service m < 2 ^ 16 -> m_method m < 2 ^ 16 ->
  delimited th = true -> framed tb = true ->
  valid th (m_header m) = true -> valid tb (m_body m) = true ->
  nul_free th (m_header m) = true -> nul_free tb (m_body m) = true ->
  wire th (m_header m) = Some xh -> wire tb (m_body m) = Some xb -> len xh + len xb < 2 ^ 32 ->
  8 + len xh + len xb <= room ->
  let form := be 2 (m_service m) ++ be 2 (m_method m) ++ be 4 (len xh + len xb) ++ xh ++ xb in
  size_hint (ser_message (ser th) (ser tb)) m = 8 + len xh + len xb /\
  serialize (ser_message (ser th) (ser tb)) m (mkW data room)
  = WOk (8 + len xh + len xb) (mkW (data ++ form) (room - (8 + len xh + len xb))) /\
  de_message (de th) (de tb) (form ++ rest) = DOk m rest.
Proof.
  intros Hs Hm Dh Fb Vh Vb Zh Zb Wh Wb Hl Hr form.
  assert (Eh := body_emits th _ _ Vh Wh). assert (Eb := body_emits tb _ _ Vb Wb).
  assert (F : len form = 8 + len xh + len xb).
  { unfold form. rewrite !len_app, !be_len. cbn. lia. }
  split; [|split].
  - apply message_hint; assumption.
  - assert (W := message_writes _ _ m _ _ Eh Eb Hl (mkW data room)). fold form in W.
    rewrite W, F. cbn [w_room]. unfold appended. rewrite F. 
    destruct (N.leb_spec (8 + len xh + len xb) room); [reflexivity|lia].
  - apply message_reads; try assumption.
    + intros r. apply (proj1 (round_trip th)); assumption.
    + apply (proj2 (round_trip tb)); assumption.
Qed.

Lemma packet_decodes ms : Forall sendable ms ->
  de_vec (de_msg de_bytes) (concat (map bytes_message_form ms)) = DOk ms [].
Proof.
  intros H. assert (E := messages_read ms [] H). rewrite app_nil_r in E. rewrite E. cbn. rewrite app_nil_r. reflexivity.
Qed.

Lemma packet_short_tail ms tail : Forall sendable ms -> tail <> [] -> len tail < 16 ->
  exists expected available rest,
    de_vec (de_msg de_bytes) (concat (map bytes_message_form ms) ++ tail)
    = DErr (InsufficientData expected available) rest /\ available < expected.
Proof.
  intros H Hne Hl. rewrite messages_read by exact H.
  destruct (message_short tail ltac:(unfold len in Hl; lia)) as (e & a & rest & E & Hlt).
  rewrite (de_vec_err _ _ _ _ Hne E). exists e, a, rest. split; [reflexivity|exact Hlt].
Qed.

Lemma packet_bad_message ms tail e rest : Forall sendable ms -> tail <> [] ->
  de_msg de_bytes tail = DErr e rest ->
  de_vec (de_msg de_bytes) (concat (map bytes_message_form ms) ++ tail) = DErr e rest.
Proof.
  intros H Hne E. rewrite messages_read by exact H. rewrite (de_vec_err _ _ _ _ Hne E). reflexivity.
Qed.

Lemma lying_length buf : bytes_ok buf ->
  (len buf < 16 -> exists expected available rest,
     de_msg de_bytes buf = DErr (InsufficientData expected available) rest /\ available < expected) /\
  (16 <= len buf -> exists service method length h tail,
     service < 2 ^ 16 /\ method < 2 ^ 16 /\ length < 2 ^ 32 /\ header_ok h /\
     buf = be 2 service ++ be 2 method ++ be 4 length ++ header_form h ++ tail /\
     (8 <= length ->
      de_msg de_bytes buf =
      DOk (mkMessage service method h (firstn (N.to_nat (length - 8)) tail)) (skipn (N.to_nat (length - 8)) tail)) /\
     (length < 8 -> exists expected available rest,
      de_msg de_bytes buf = DErr (InsufficientData expected available) rest /\ available < expected)).
Proof.
  intros Hb. split.
  - intros Hl. apply message_short. unfold len in Hl. lia.
  - intros Hl. destruct (parse_header buf Hb Hl) as (s & m & L & h & tail & Hs & Hm & HL & Hh & Hc & Ht & ->).
    exists s, m, L, h, tail. destruct (decode_form s m L h tail Hs Hm HL Hh Hc Ht) as [D1 D2].
    repeat split; try assumption; apply Hh.
Qed.

(** A message announced longer than the data is accepted with what is there. *)
Lemma truncated_accepted m cut : sendable m -> cut < len (m_body m) ->
  de_msg de_bytes (firstn (N.to_nat (16 + cut)) (bytes_message_form m))
  = DOk (msg_with_body m (firstn (N.to_nat cut) (m_body m))) [].
Proof.
  intros ((Hs & Hm & Hh) & Hc & Hb & Hl) Hcut.
  unfold bytes_message_form, message_form.
  assert (E : firstn (N.to_nat (16 + cut)) (be 2 (m_service m) ++ be 2 (m_method m) ++ be 4 (8 + len (m_body m)) ++ header_form (m_header m) ++ m_body m)
     = be 2 (m_service m) ++ be 2 (m_method m) ++ be 4 (8 + len (m_body m)) ++ header_form (m_header m) ++ firstn (N.to_nat cut) (m_body m)).
  { assert (L8 : length (header_form (m_header m)) = 8%nat) by (assert (X := header_form_len (m_header m)); unfold len in X; lia).
    rewrite firstn_app, be_length, (firstn_all2 (be 2 _)) by (rewrite be_length; lia). f_equal.
    rewrite firstn_app, be_length, (firstn_all2 (be 2 _)) by (rewrite be_length; lia). f_equal.
    rewrite firstn_app, be_length, (firstn_all2 (be 4 _)) by (rewrite be_length; lia). f_equal.
    rewrite firstn_app, L8, (firstn_all2 (header_form _)) by lia. f_equal. f_equal. lia. }
  rewrite E.
  destruct (decode_form (m_service m) (m_method m) (8 + len (m_body m)) (m_header m) (firstn (N.to_nat cut) (m_body m)) Hs Hm Hl Hh Hc) as [D _].
  { apply bytes_ok_firstn. exact Hb. }
  rewrite D by lia.
  rewrite firstn_all2 by (rewrite firstn_length; unfold len in *; lia).
  rewrite skipn_all2 by (rewrite firstn_length; unfold len in *; lia). reflexivity.
Qed.

(** * Builders *)

Lemma new_message {H B} (header : H) (body : B) :
  m_service (msg_new header body) = 0 /\ m_method (msg_new header body) = 0 /\
  m_header (msg_new header body) = header /\ m_body (msg_new header body) = body.
Proof. repeat split. Qed.

Lemma builders {B} (m : message header B) :
  (forall v, observe (msg_with_service m v) = (v, m_method m, msg_client m, msg_session m, msg_protocol m,
     msg_interface m, msg_type m, mtf_is_tp (h_type (m_header m)), msg_code m, m_body m)) /\
  (forall v, observe (msg_with_method m v) = (m_service m, v, msg_client m, msg_session m, msg_protocol m,
     msg_interface m, msg_type m, mtf_is_tp (h_type (m_header m)), msg_code m, m_body m)) /\
  (forall i, observe (msg_with_id m i) = (mid_service i, mid_method i, msg_client m, msg_session m, msg_protocol m,
     msg_interface m, msg_type m, mtf_is_tp (h_type (m_header m)), msg_code m, m_body m)) /\
  (forall v, observe (msg_with_client m v) = (m_service m, m_method m, v, msg_session m, msg_protocol m,
     msg_interface m, msg_type m, mtf_is_tp (h_type (m_header m)), msg_code m, m_body m)) /\
  (forall v, observe (msg_with_session m v) = (m_service m, m_method m, msg_client m, v, msg_protocol m,
     msg_interface m, msg_type m, mtf_is_tp (h_type (m_header m)), msg_code m, m_body m)) /\
  (forall v, observe (msg_with_protocol m v) = (m_service m, m_method m, msg_client m, msg_session m, v,
     msg_interface m, msg_type m, mtf_is_tp (h_type (m_header m)), msg_code m, m_body m)) /\
  (forall v, observe (msg_with_interface m v) = (m_service m, m_method m, msg_client m, msg_session m, msg_protocol m,
     v, msg_type m, mtf_is_tp (h_type (m_header m)), msg_code m, m_body m)) /\
  (forall v, observe (msg_with_code m v) = (m_service m, m_method m, msg_client m, msg_session m, msg_protocol m,
     msg_interface m, msg_type m, mtf_is_tp (h_type (m_header m)), v, m_body m)) /\
  (forall v : B, observe (msg_with_body m v) = (m_service m, m_method m, msg_client m, msg_session m, msg_protocol m,
     msg_interface m, msg_type m, mtf_is_tp (h_type (m_header m)), msg_code m, v)) /\
  msg_id m = mkMessageId (m_service m) (m_method m).
Proof. repeat split. Qed.

Lemma type_not_tp t : canonical_type t -> tp_bit (mt_as_u8 t) = false -> mtf_is_tp (mtf_from_type t) = false.
Proof.
  intros Hc Ht. unfold mtf_from_type. rewrite tp_is_bit; [exact Ht|].
  destruct t; cbn [canonical_type mt_as_u8] in *; lia.
Qed.

Lemma type_builder {B} (m : message header B) t : canonical_type t -> tp_bit (mt_as_u8 t) = false ->
  observe (msg_with_type m t) = (m_service m, m_method m, msg_client m, msg_session m, msg_protocol m,
     msg_interface m, t, false, msg_code m, m_body m).
Proof.
  intros Hc Ht.
  assert (E : mtf_as_type (mtf_from_type t) = t).
  { apply from_type_spec; [|split; assumption]. destruct t; cbn [canonical_type valid_type] in *; tauto. }
  unfold observe, msg_with_type, msg_type, msg_set_header, h_with_type, h_with_type_field, msg_client, msg_session, msg_protocol,
    msg_interface, msg_code; cbn [m_service m_method m_header m_body h_client h_session h_protocol h_interface h_type h_code].
  rewrite E, type_not_tp by assumption. reflexivity.
Qed.

Lemma header_builders h :
  (forall v, observe_header (h_with_client h v) = (v, h_session h, h_protocol h, h_interface h, mtf_as_type (h_type h), mtf_is_tp (h_type h), h_code h)) /\
  (forall v, observe_header (h_with_session h v) = (h_client h, v, h_protocol h, h_interface h, mtf_as_type (h_type h), mtf_is_tp (h_type h), h_code h)) /\
  (forall i, observe_header (h_with_id h i) = (rid_client i, rid_session i, h_protocol h, h_interface h, mtf_as_type (h_type h), mtf_is_tp (h_type h), h_code h)) /\
  (forall v, observe_header (h_with_protocol h v) = (h_client h, h_session h, v, h_interface h, mtf_as_type (h_type h), mtf_is_tp (h_type h), h_code h)) /\
  (forall v, observe_header (h_with_interface h v) = (h_client h, h_session h, h_protocol h, v, mtf_as_type (h_type h), mtf_is_tp (h_type h), h_code h)) /\
  (forall v, observe_header (h_with_code h v) = (h_client h, h_session h, h_protocol h, h_interface h, mtf_as_type (h_type h), mtf_is_tp (h_type h), v)) /\
  (forall t, canonical_type t -> tp_bit (mt_as_u8 t) = false ->
     observe_header (h_with_type h t) = (h_client h, h_session h, h_protocol h, h_interface h, t, false, h_code h)) /\
  h_id h = mkRequestId (h_client h) (h_session h) /\
  observe_header header_new = (0, 0, 1, 0, Request, false, RcOk).
Proof.
  repeat (split; [reflexivity|]). split; [|split; reflexivity].
  intros t Hc Ht.
  assert (E : mtf_as_type (mtf_from_type t) = t).
  { apply from_type_spec; [|split; assumption]. destruct t; cbn [canonical_type valid_type] in *; tauto. }
  unfold observe_header, h_with_type, h_with_type_field; cbn [h_client h_session h_protocol h_interface h_type h_code].
  rewrite E, type_not_tp by assumption. reflexivity.
Qed.

Lemma maps {H B} (m : message H B) :
  (forall T (f : H -> T), msg_map_header f m = mkMessage (m_service m) (m_method m) (f (m_header m)) (m_body m)) /\
  (forall T (f : B -> T), msg_map_body f m = mkMessage (m_service m) (m_method m) (m_header m) (f (m_body m))) /\
  (forall T U (f : H -> B -> T * U), msg_map f m =
     mkMessage (m_service m) (m_method m) (fst (f (m_header m) (m_body m))) (snd (f (m_header m) (m_body m)))) /\
  (forall T (h : T), msg_with_header m h = mkMessage (m_service m) (m_method m) h (m_body m)) /\
  (forall T (b : T), msg_with_body m b = mkMessage (m_service m) (m_method m) (m_header m) b) /\
  (forall h, msg_replace_header m h = (m_header m, mkMessage (m_service m) (m_method m) h (m_body m))) /\
  (forall b, msg_replace_body m b = (m_body m, mkMessage (m_service m) (m_method m) (m_header m) b)).
Proof.
  repeat (split; [reflexivity|]). split.
  - intros T U f. unfold msg_map. destruct (f (m_header m) (m_body m)); reflexivity.
  - repeat split.
Qed.

Lemma answers {B} (m : message header B) c :
  observe (msg_into_response m c) = (m_service m, m_method m, msg_client m, msg_session m, msg_protocol m,
     msg_interface m, Response, false, c, m_body m) /\
  observe (msg_into_error m c) = (m_service m, m_method m, msg_client m, msg_session m, msg_protocol m,
     msg_interface m, Error, false, c, m_body m).
Proof. split; reflexivity. Qed.

(** Decoding a message from any bytes returns, without panic, and consumes from the front. *)
Lemma message_total buf :
  match de_msg de_bytes buf with
  | DOk _ rest | DErr _ rest => exists used, buf = used ++ rest
  | DPanic | DHang => False
  end.
Proof.
  assert (S := de_msg_sane buf). destruct (de_msg de_bytes buf) eqn:E; try exact S.
  unfold de_msg, de_message, deserialize_len, with_take, de_tuple_cons, de_tuple_nil, de_header, de_bytes, de_u16, de_u8, de_return_code in E.
  repeat (match type of E with context [de_uint ?k ?b] => destruct (de_uint_cases k b) as [[? E']|[? E']]; rewrite E' in E; clear E'; cbn [dbind dmap] in E; try discriminate E end).
Qed.

Lemma too_long_exists : 2 ^ 32 <= 8 + len (repeat 0 (N.to_nat (2 ^ 32))).
Proof. unfold len. rewrite repeat_length, N2Nat.id. lia. Qed.
