(** Property theorems C29-C33: the transport protocol. *)
From Coq Require Import List NArith ZArith Bool Lia.
From Verif Require Import BytesModel WireSpec PrimitivesModel PrimitivesSpec MessageModel MessageSpec
  TpModel TpSpec TpProofs TpTheorems.
Import ListNotations.
Open Scope N_scope.

(** 40 bytes, split at 20 and then at 16. *)
Definition ex_body : list N := map N.of_nat (seq 1 40).
Definition ex_first := mkTp 0 true (firstn 16 ex_body).
Definition ex_second := mkTp 1 true (firstn 16 (skipn 16 ex_body)).
Definition ex_third := mkTp 2 false (skipn 32 ex_body).
Example ex_run : split_run (tp_new ex_body) [ex_first; ex_second; ex_third].
Proof.
  eapply (run_more _ 20); [lia|reflexivity|]. eapply (run_more _ 16); [lia|reflexivity|].
  eapply (run_last _ 16); [lia|reflexivity].
Qed.

(** C29.  Segmentation and reassembly. *)
Theorem C29_terminates : forall limits body,
  (forall i, 16 <= limits i) ->
  exists segs, split_loop (S (length body)) limits (tp_new body) = Some segs /\ split_run (tp_new body) segs.
Proof. exact @split_terminates. Qed.
Print Assumptions C29_terminates.
Theorem C29_reassembly : forall body first rest,
  split_run (tp_new body) (first :: rest) ->
  join_all first rest = Some (mkTp 0 false body).
Proof. exact @reassembly. Qed.
Print Assumptions C29_reassembly.
Theorem C29_on_wire : forall ubits body segs s data room,
  32 <= ubits ->
  split_run (tp_new body) segs -> len body <= 2 ^ 32 -> In s segs -> 4 + len (tp_body s) <= room ->
  serialize (ser_tp ubits) s (mkW data room)
  = WOk (4 + len (tp_body s)) (mkW (data ++ tp_form s) (room - (4 + len (tp_body s)))) /\
  de_tp (tp_form s) = DOk s [].
Proof. exact @segments_on_wire. Qed.
Print Assumptions C29_on_wire.
Theorem C29_end_to_end : forall ubits m first rest,
  32 <= ubits -> message_ok m -> canonical_header (m_header m) ->
  bytes_ok (m_body m) -> 12 + len (m_body m) < 2 ^ 32 ->
  split_run (m_body (wrap_segment m)) (first :: rest) ->
  (forall s, In s (first :: rest) ->
     let sent := msg_with_body m s in
     let form := message_form (m_service m) (m_method m) (m_header m) (tp_form s) in
     (forall data room, len form <= room ->
        serialize (ser_msg (ser_tp ubits)) sent (mkW data room) = WOk (len form) (mkW (data ++ form) (room - len form))) /\
     (forall after, exists received, de_msg de_bytes (form ++ after) = DOk received after /\
        into_segment received = inr sent)) /\
  exists whole, join_all first rest = Some whole /\ unwrap_segment (msg_with_body m whole) = m.
Proof. exact @end_to_end. Qed.
Print Assumptions C29_end_to_end.
Theorem C29_segment_messages : forall (m : message header (list N)),
  wrap_segment m = msg_with_body m (mkTp 0 false (m_body m)) /\ unwrap_segment (wrap_segment m) = m /\
  (forall h rest, de_tp (m_body m) = DOk h rest -> into_segment m = inr (msg_with_body m h)) /\
  (forall e rest, de_tp (m_body m) = DErr e rest -> into_segment m = inl e).
Proof. exact @segment_messages. Qed.
Print Assumptions C29_segment_messages.
Theorem C29_into_segment_total : forall (m : message header (list N)),
  de_tp (m_body m) <> DPanic /\ de_tp (m_body m) <> DHang.
Proof. exact @into_segment_total. Qed.
Print Assumptions C29_into_segment_total.
Example C29_example : join_all ex_first [ex_second; ex_third] = Some (mkTp 0 false ex_body).
Proof. reflexivity. Qed.

(** C30.  Shape of the segments. *)
Theorem C30_split : forall h limit,
  16 <= limit ->
  let units := limit / 16 in
  (len (tp_body h) <= 16 * units ->
     tp_split h limit = (None, mkTp (tp_offset h) false (tp_body h))) /\
  (16 * units < len (tp_body h) ->
     exists front back, tp_body h = front ++ back /\ len front = 16 * units /\ 0 < len front <= limit /\ back <> [] /\
       tp_split h limit = (Some (mkTp (tp_offset h) true front), mkTp (tp_offset h + units) (tp_more h) back)).
Proof. exact @split_shape. Qed.
Print Assumptions C30_split.
Theorem C30_small_limit : forall h limit,
  limit < 16 -> tp_split h limit = (None, h).
Proof. exact @split_small. Qed.
Print Assumptions C30_small_limit.
Theorem C30_pieces : forall body segs,
  split_run (tp_new body) segs ->
  concat (map tp_body segs) = body /\
  (forall i s, nth_error segs i = Some s ->
    16 * tp_offset s = len (concat (map tp_body (firstn i segs))) /\
    tp_more s = Nat.ltb (S i) (length segs)) /\
  (forall i s, nth_error segs i = Some s -> (S i < length segs)%nat ->
    0 < len (tp_body s) /\ len (tp_body s) mod 16 = 0).
Proof. exact @segment_pieces. Qed.
Print Assumptions C30_pieces.
Theorem C30_resplit_drops_flag : forall h segs,
  split_run h segs -> tp_more (last segs h) = false.
Proof. exact @resplit_drops_flag. Qed.
Print Assumptions C30_resplit_drops_flag.
Example C30_example :
  tp_split (tp_new ex_body) 31 = (Some ex_first, mkTp 1 false (skipn 16 ex_body)) /\
  tp_split (mkTp 1 true (skipn 16 ex_body)) 100 = (None, mkTp 1 false (skipn 16 ex_body)).
Proof. split; reflexivity. Qed.

(** C31.  Refusals. *)
Theorem C31_join : forall h other,
  (tp_more h = false -> tp_join h other = (Some (UnexpectedSegment other), h)) /\
  (tp_more h = true -> tp_offset other <> len (tp_body h) / 16 ->
     tp_join h other = (Some (WrongOffset (len (tp_body h) / 16) other), h)) /\
  (tp_more h = true -> tp_offset other = len (tp_body h) / 16 ->
     tp_join h other = (None, mkTp (tp_offset h) (tp_more other) (tp_body h ++ tp_body other))).
Proof. exact @join_cases. Qed.
Print Assumptions C31_join.
Theorem C31_unaligned_accepted : exists h other, len (tp_body h) mod 16 <> 0 /\ tp_more h = true /\
  fst (tp_join h other) = None /\ 16 * tp_offset other <> len (tp_body h).
Proof. exact @unaligned_accepted. Qed.
Print Assumptions C31_unaligned_accepted.
Example C31_example :
  tp_join ex_first ex_third = (Some (WrongOffset 1 ex_third), ex_first) /\
  tp_join ex_third ex_first = (Some (UnexpectedSegment ex_first), ex_third).
Proof. split; reflexivity. Qed.

(** C32.  Loss, duplication and reordering. *)
Theorem C32_unreliable_delivery : forall body first rest arrivals,
  split_run (tp_new body) (first :: rest) ->
  (forall s, In s arrivals -> In s (first :: rest)) ->
  let r := receive first arrivals in
  tp_offset r = 0 /\
  (exists missing, body = tp_body r ++ missing) /\
  (tp_more r = false -> tp_body r = body) /\
  (subseq rest arrivals -> tp_more r = false).
Proof. exact @unreliable. Qed.
Print Assumptions C32_unreliable_delivery.
Theorem C32_wrong_start_refuted : exists body segs first arrivals,
  split_run (tp_new body) segs /\ In first segs /\ (forall s, In s arrivals -> In s segs) /\
  tp_more (receive first arrivals) = false /\
  ~ exists a b, body = a ++ tp_body (receive first arrivals) ++ b.
Proof. exact @wrong_start. Qed.
Print Assumptions C32_wrong_start_refuted.
Example C32_example :
  receive ex_first [ex_third; ex_first; ex_second; ex_second; ex_third; ex_second] = mkTp 0 false ex_body /\
  subseq [ex_second; ex_third] [ex_third; ex_first; ex_second; ex_second; ex_third; ex_second].
Proof.
  split; [reflexivity|]. apply sub_skip, sub_skip, sub_take, sub_skip, sub_take, sub_nil.
Qed.

(** C33.  Wire form ([ubits]: width of usize). *)
Theorem C33_wire_form : forall ubits h data room,
  32 <= ubits -> tp_offset h < 2 ^ 28 ->
  size_hint (ser_tp ubits) h = 4 + len (tp_body h) /\
  serialize (ser_tp ubits) h (mkW data room) =
    (if 4 + len (tp_body h) <=? room
     then WOk (4 + len (tp_body h)) (mkW (data ++ tp_form h) (room - (4 + len (tp_body h)))) else WPanic) /\
  de_tp (tp_form h) = DOk h [].
Proof. exact @tp_wire_form. Qed.
Print Assumptions C33_wire_form.
Theorem C33_saturates : forall h data room,
  2 ^ 28 <= tp_offset h -> tp_offset h <= 0xfffffff0 -> 4 + len (tp_body h) <= room ->
  exists b, serialize (ser_tp 64) h (mkW data room) = WOk (4 + len (tp_body h)) b /\
    w_data b = data ++ tp_form (mkTp (2 ^ 28 - 1) (tp_more h) (tp_body h)).
Proof. exact @tp_saturates. Qed.
Print Assumptions C33_saturates.
Theorem C33_wraps_on_32_bit : forall h data room,
  2 ^ 28 <= tp_offset h -> tp_offset h <= 0xfffffff0 -> 4 + len (tp_body h) <= room ->
  exists b, serialize (ser_tp 32) h (mkW data room) = WOk (4 + len (tp_body h)) b /\
    w_data b = data ++ tp_form (mkTp (tp_offset h mod 2 ^ 28) (tp_more h) (tp_body h)).
Proof. exact @tp_wraps_32. Qed.
Print Assumptions C33_wraps_on_32_bit.
Theorem C33_too_large : forall ubits h b,
  0xfffffff0 < tp_offset h ->
  serialize (ser_tp ubits) h b = WErr (SerOther (OffsetTooLarge 0xfffffff0 (tp_offset h))) b.
Proof. exact @tp_too_large. Qed.
Print Assumptions C33_too_large.
Theorem C33_any_input : forall buf,
  bytes_ok buf ->
  (len buf < 4 -> de_tp buf = DErr (InsufficientData 4 (len buf)) buf) /\
  (4 <= len buf -> exists word body, word < 2 ^ 32 /\ buf = be 4 word ++ body /\
     de_tp buf = DOk (mkTp (word / 16) (N.odd word) body) []).
Proof. exact @tp_any_input. Qed.
Print Assumptions C33_any_input.
Example C33_example :
  serialize (ser_tp 64) ex_third (mkW [] 100) = WOk 12 (mkW [0; 0; 0; 32; 33; 34; 35; 36; 37; 38; 39; 40] 88) /\
  de_tp [0; 0; 0; 0x1F; 7] = DOk (mkTp 1 true [7]) [] /\
  serialize (ser_tp 64) (mkTp (2 ^ 28) false []) (mkW [] 4) = WOk 4 (mkW [0xFF; 0xFF; 0xFF; 0xF0] 0) /\
  serialize (ser_tp 32) (mkTp (2 ^ 28) false []) (mkW [] 4) = WOk 4 (mkW [0; 0; 0; 0] 0).
Proof. vm_compute. repeat split. Qed.
