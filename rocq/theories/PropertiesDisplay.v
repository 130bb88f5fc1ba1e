(** Property theorems C63: printed forms. *)
From Coq Require Import List NArith ZArith Bool Ascii String.
From Verif Require Import BytesModel PrimitivesModel PrimitivesSpec MessageModel MessageSpec SomeipModel SomeipSpec
  RuntimeModel DisplayModel DisplaySpec DisplayTheorems.
Import ListNotations.
Open Scope N_scope.

(** C63.  Ids print as four, versions, types and codes as two lower-case hexadecimal digits of
    their value, most significant first, whatever the value; numbers inside names are decimal. *)
Theorem C63_u16 : forall v,
  v < 2 ^ 16 -> numeral 16 4 (show_u16 v) v.
Proof. exact @u16_printed. Qed.
Print Assumptions C63_u16.
Theorem C63_u8 : forall v,
  v < 2 ^ 8 -> numeral 16 2 (show_u8 v) v.
Proof. exact @u8_printed. Qed.
Print Assumptions C63_u8.
Theorem C63_decimal : forall v,
  denotes 10 (fmt_dec v) v /\
  (v = 0 /\ fmt_dec v = "0"%string \/
   exists c s d, fmt_dec v = String c s /\ digit_value c = Some d /\ d <> 0).
Proof. exact @dec_printed. Qed.
Print Assumptions C63_decimal.
(** The fields come in this order, with dots between them. *)
Theorem C63_ids : forall (i : message_id) (r : request_id),
  (mid_service i < 2 ^ 16 -> mid_method i < 2 ^ 16 ->
   exists a b, show_message_id i = dotted [a; b] /\ numeral 16 4 a (mid_service i) /\ numeral 16 4 b (mid_method i)) /\
  (rid_client r < 2 ^ 16 -> rid_session r < 2 ^ 16 ->
   exists a b, show_request_id r = dotted [a; b] /\ numeral 16 4 a (rid_client r) /\ numeral 16 4 b (rid_session r)).
Proof. exact @ids_printed. Qed.
Print Assumptions C63_ids.
Theorem C63_header : forall (h : header),
  header_ok h ->
  exists a b c d, show_header h = dotted [a; b; c; d] /\ numeral 16 4 a (h_client h) /\ numeral 16 4 b (h_session h) /\
    numeral 16 2 c (h_type h) /\ numeral 16 2 d (rc_as_u8 (h_code h)).
Proof. exact @header_printed. Qed.
Print Assumptions C63_header.
Theorem C63_message : forall (B : Type) (m : message header B),
  message_ok m ->
  exists a b c d e f, show_message show_header m = dotted [a; b; c; d; e; f] /\
    numeral 16 4 a (m_service m) /\ numeral 16 4 b (m_method m) /\
    numeral 16 4 c (msg_client m) /\ numeral 16 4 d (msg_session m) /\
    numeral 16 2 e (h_type (m_header m)) /\ numeral 16 2 f (rc_as_u8 (msg_code m)).
Proof. exact @message_printed. Qed.
Print Assumptions C63_message.
Theorem C63_runtime_message : forall (T : Type) (m : smessage T),
  smessage_ok m ->
  exists a b c d e f, show_smessage m = dotted ["M"%string; a; b; c; d; e; f] /\
    numeral 16 4 a (s_service m) /\ numeral 16 4 b (s_method m) /\
    numeral 16 4 c (s_client m) /\ numeral 16 4 d (s_session m) /\
    numeral 16 2 e (st_as_u8 (s_mtype m)) /\ numeral 16 2 f (sc_as_u8 (s_rcode m)).
Proof. exact @smessage_printed. Qed.
Print Assumptions C63_runtime_message.
Theorem C63_interface_id : forall (i : iid),
  fst i < 2 ^ 16 -> snd i < 2 ^ 8 ->
  exists a b, show_iid i = dotted ["I"%string; a; b] /\ numeral 16 4 a (fst i) /\ numeral 16 2 b (snd i).
Proof. exact @iid_printed. Qed.
Print Assumptions C63_interface_id.
(** So two messages print the same exactly if they agree on these fields, and two interface ids,
    message types or return codes only if they are the same. *)
Theorem C63_messages_told_apart : forall (B C : Type) (m : message header B) (m' : message header C),
  message_ok m -> message_ok m' ->
  (show_message show_header m = show_message show_header m' <->
   m_service m = m_service m' /\ m_method m = m_method m' /\ msg_client m = msg_client m' /\ msg_session m = msg_session m' /\
   h_type (m_header m) = h_type (m_header m') /\ rc_as_u8 (msg_code m) = rc_as_u8 (msg_code m')).
Proof. exact @messages_told_apart. Qed.
Print Assumptions C63_messages_told_apart.
Theorem C63_runtime_messages_told_apart : forall (T U : Type) (m : smessage T) (m' : smessage U),
  smessage_ok m -> smessage_ok m' ->
  (show_smessage m = show_smessage m' <->
   s_service m = s_service m' /\ s_method m = s_method m' /\ s_client m = s_client m' /\ s_session m = s_session m' /\
   st_as_u8 (s_mtype m) = st_as_u8 (s_mtype m') /\ sc_as_u8 (s_rcode m) = sc_as_u8 (s_rcode m')).
Proof. exact @smessages_told_apart. Qed.
Print Assumptions C63_runtime_messages_told_apart.
Theorem C63_interface_ids_told_apart : forall (i j : iid),
  fst i < 2 ^ 16 -> snd i < 2 ^ 8 -> fst j < 2 ^ 16 -> snd j < 2 ^ 8 ->
  show_iid i = show_iid j -> i = j.
Proof. exact @iids_told_apart. Qed.
Print Assumptions C63_interface_ids_told_apart.
Theorem C63_types_told_apart : forall (t t' : message_type),
  show_message_type t = show_message_type t' -> t = t'.
Proof. exact @types_told_apart. Qed.
Print Assumptions C63_types_told_apart.
Theorem C63_codes_told_apart : forall (c c' : return_code),
  show_return_code c = show_return_code c' -> c = c'.
Proof. exact @codes_told_apart. Qed.
Print Assumptions C63_codes_told_apart.
(** Both crates print the same message the same way, but for the "M." of one of them. *)
Theorem C63_same_print : forall (T : Type) (s : smessage T) (p : message header T),
  smessage_ok s -> message_ok p -> same s p ->
  show_smessage s = ("M." ++ show_message show_header p)%string.
Proof. exact @same_print. Qed.
Print Assumptions C63_same_print.
Example C63_example :
  show_smessage (s_with_code (s_with_type (s_with_request (s_with_id (s_new 1) 0x12345678) 0x9abcdef0) StResponse) ScNotOk)
  = "M.1234.5678.9abc.def0.80.01"%string /\
  show_iid (0x1234, 0x01) = "I.1234.01"%string /\ show_return_code (RcOther 0) = "Other(0)"%string /\
  show_message show_header (mkMessage 0x12 0x5678 (mkHeader 0x1234 0xf 1 2 0xa0 (RcReserved 0x5e)) tt)
  = "0012.5678.1234.000f.a0.5e"%string.
Proof. vm_compute. repeat split. Qed.
Example C63_example_ok : numeral 16 4 "00af" 175 /\ ~ denotes 16 "A" 10.
Proof. split; [exact (u16_printed 175 eq_refl)|]. intros D. inversion D. discriminate. Qed.
