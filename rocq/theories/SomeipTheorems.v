(** Proofs of the statements in PropertiesSomeip.v. *)
From Coq Require Import List NArith ZArith Bool Lia ZifyBool ZifyNat ZifyN.
From Verif Require Import BytesModel UniverseModel WireSpec BytesProofs UniverseProofs StringProofs
  PrimitivesModel PrimitivesSpec PrimitivesProofs PrimitivesTheorems MessageModel MessageSpec MessageProofs MessageTheorems
  SomeipModel SomeipSpec.
Import ListNotations.
Open Scope N_scope.
Ltac Zify.zify_post_hook ::= Z.div_mod_to_equations.
Arguments N.add : simpl never. Arguments N.mul : simpl never. Arguments N.pow : simpl never.
Arguments N.of_nat : simpl never. Arguments N.sub : simpl never.
Arguments N.div : simpl never. Arguments N.modulo : simpl never.

(** The enumerations. *)
Definition mt_code (t : message_type) : N * N :=
  match t with Request => (0,0) | RequestNoReturn => (1,0) | Notification => (2,0) | Response => (3,0) | Error => (4,0) | Unknown v => (5,v) end.
Lemma mt_code_inj a b : mt_code a = mt_code b -> a = b.
Proof. destruct a, b; cbn; intros [=]; try reflexivity. subst. reflexivity. Qed.

Lemma types_agree b : b < 256 ->
  type_view (st_from_u8 b) = (mtf_as_type b, mtf_is_tp b) /\ st_as_u8 (st_from_u8 b) = b.
Proof.
  intros Hb.
  assert (H := for_all_bytes (fun b =>
    let (t, tp) := type_view (st_from_u8 b) in
    (fst (mt_code t) =? fst (mt_code (mtf_as_type b))) && (snd (mt_code t) =? snd (mt_code (mtf_as_type b))) &&
    Bool.eqb tp (mtf_is_tp b) && (st_as_u8 (st_from_u8 b) =? b)) ltac:(vm_compute; reflexivity) b Hb).
  cbn beta in H. destruct (type_view (st_from_u8 b)) as [t tp].
  apply andb_prop in H as [H H4]. apply andb_prop in H as [H H3]. apply andb_prop in H as [H1 H2].
  apply N.eqb_eq in H1, H2, H4. apply eqb_prop in H3. split; [|exact H4].
  f_equal; [|exact H3]. apply mt_code_inj. destruct (mt_code t), (mt_code (mtf_as_type b)). cbn in *. congruence.
Qed.

Lemma codes_agree b : b < 256 -> code_view (sc_from_u8 b) = rc_from_u8 b /\ sc_as_u8 (sc_from_u8 b) = b.
Proof.
  intros Hb. destruct b as [|p]; [split; reflexivity|].
  do 8 (destruct p as [p|p|]; try (split; reflexivity); try (exfalso; lia)).
Qed.

Lemma code_byte c : sc_as_u8 c = rc_as_u8 (code_view c).
Proof. destruct c; reflexivity. Qed.

(** Two types with the same view have the same byte. *)
Lemma type_byte s b : b < 256 -> match s with StUnknown v => v < 256 | _ => True end ->
  type_view s = (mtf_as_type b, mtf_is_tp b) -> st_as_u8 s = b.
Proof.
  intros Hb Hs E. destruct s as [| | | | | | | | | |x].
  11:{ cbn [type_view st_as_u8] in *. injection E as E1 E2.
       assert (Hx := for_all_bytes (fun b => match mtf_as_type b with
                       | Unknown w => N.eqb w (without_tp b) && Bool.eqb (tp_bit b) (mtf_is_tp b) | _ => true end)
                       ltac:(vm_compute; reflexivity) b Hb). cbn beta in Hx.
       rewrite <- E1 in Hx. apply andb_prop in Hx as [Hw Ht]. apply N.eqb_eq in Hw. apply eqb_prop in Ht.
       rewrite <- E2 in Ht. unfold without_tp, tp_bit in *.
       destruct (N.odd (x / 32)) eqn:Ox; rewrite Ht in Hw; [|lia].
       assert (32 <= x). { destruct (N.lt_ge_cases x 32); [|assumption]. rewrite N.div_small in Ox by assumption. discriminate. }
       assert (32 <= b). { destruct (N.lt_ge_cases b 32); [|assumption]. rewrite (N.div_small b) in Ht by assumption. discriminate. }
       lia. }
  all: cbn [type_view st_as_u8] in *; injection E as E1 E2.
  all: match type of E1 with ?t = _ => match type of E2 with ?f = _ => match goal with |- ?n = _ =>
    assert (Hx := for_all_bytes (fun b => negb ((fst (mt_code (mtf_as_type b)) =? fst (mt_code t)) && Bool.eqb (mtf_is_tp b) f) || (n =? b))
      ltac:(vm_compute; reflexivity) b Hb) end end end; cbn beta in Hx; rewrite <- E1, <- E2 in Hx; cbn in Hx;
    apply N.eqb_eq; exact Hx.
Qed.

(** Serialization. *)
Lemma u32_as_two a b buf : a < 2 ^ 16 -> b < 2 ^ 16 ->
  serialize (ser_uint 4) (N.lor (N.shiftl a 16) b) buf =
  serialize (ser_tuple_cons ser_u16 (ser_tuple_cons ser_u16 ser_tuple_nil)) (a, (b, tt)) buf.
Proof.
  intros Ha Hb. change (2^16) with 65536 in *. rewrite pack32 by exact Hb.
  assert (W1 := proj2 (ser_uint_meets 4 (a * 65536 + b)) buf). rewrite be4_split in W1 by exact Hb.
  rewrite W1. symmetry. apply (ids_writes a b buf).
Qed.

Lemma tuple_as_header {T} (ST : Serialize T) c s p i t rc (v : T) s_t s_c buf :
  st_as_u8 s_t = t -> sc_as_u8 s_c = rc_as_u8 rc ->
  serialize (ser_s_tuple ST) (c, (s, (p, (i, (s_t, (s_c, (v, tt))))))) buf =
  serialize (ser_tuple_cons ser_header (ser_tuple_cons ST ser_tuple_nil)) (mkHeader c s p i t rc, (v, tt)) buf.
Proof.
  intros Et Ec. unfold ser_s_tuple, ser_header, ser_header_tuple, header_tuple, ser_s_type, ser_s_code, ser_return_code, ser_u16, ser_u8.
  cbn [ser_tuple_cons ser_tuple_nil serialize fst snd h_client h_session h_protocol h_interface h_type h_code].
  rewrite Et, Ec.
  cbn [ser_uint serialize].
  destruct (put_slice (to_be_bytes 2 c) buf) as [b1|]; [|reflexivity]. cbn [wbind].
  destruct (put_slice (to_be_bytes 2 s) b1) as [b2|]; [|reflexivity]. cbn [wbind].
  destruct (put_slice (to_be_bytes 1 p) b2) as [b3|]; [|reflexivity]. cbn [wbind].
  destruct (put_slice (to_be_bytes 1 i) b3) as [b4|]; [|reflexivity]. cbn [wbind].
  destruct (put_slice (to_be_bytes 1 t) b4) as [b5|]; [|reflexivity]. cbn [wbind].
  destruct (put_slice (to_be_bytes 1 (rc_as_u8 rc)) b5) as [b6|]; [|reflexivity]. cbn [wbind].
  destruct (serialize ST v b6) as [n b7|e b7|]; [|reflexivity|reflexivity]. cbn [wbind].
  f_equal. lia.
Qed.

Lemma same_wire {T} (ST : Serialize T) s p buf :
  smessage_ok s -> message_ok p -> same s p ->
  size_hint (ser_smessage ST) s = size_hint (ser_msg ST) p /\
  serialize (ser_smessage ST) s buf = serialize (ser_msg ST) p buf.
Proof.
  intros (O1 & O2 & O3 & O4 & O5 & O6 & O7 & O8) (P1 & P2 & P3) (E1 & E2 & E3 & E4 & E5 & E6 & E7 & E8 & E9).
  assert (Et : st_as_u8 (s_mtype s) = h_type (m_header p)).
  { apply type_byte; [apply P3|exact O7|exact E7]. }
  assert (Ec : sc_as_u8 (s_rcode s) = rc_as_u8 (h_code (m_header p))) by (rewrite code_byte, E8; reflexivity).
  assert (Eh : m_header p = mkHeader (s_client s) (s_session s) (s_protocol s) (s_interface s) (h_type (m_header p)) (h_code (m_header p))).
  { unfold msg_client, msg_session, msg_protocol, msg_interface in *. rewrite E3, E4, E5, E6. destruct (m_header p). reflexivity. }
  split.
  - unfold ser_msg. cbn [ser_smessage ser_message size_hint]. rewrite E9. cbn. lia.
  - unfold ser_msg. cbn [ser_smessage ser_message serialize]. unfold s_id. 
    rewrite (u32_as_two (s_service s) (s_method s) buf O1 O2).
    change (wbind (serialize (ser_tuple_cons ser_u16 (ser_tuple_cons ser_u16 ser_tuple_nil)) (s_service s, (s_method s, tt)) buf)
      (fun n b1 => wbind (serialize_len (ser_s_tuple ST) LF32 (s_tuple s) b1) (fun k b2 => WOk (n + k) b2)) =
      wbind (serialize (ser_tuple_cons ser_u16 (ser_tuple_cons ser_u16 ser_tuple_nil)) (m_service p, (m_method p, tt)) buf)
      (fun n b1 => wbind (serialize_len (ser_tuple_cons ser_header (ser_tuple_cons ST ser_tuple_nil)) LF32 (m_header p, (m_body p, tt)) b1)
        (fun k b2 => WOk (n + k) b2))).
    rewrite E1, E2.
    destruct (serialize (ser_tuple_cons ser_u16 (ser_tuple_cons ser_u16 ser_tuple_nil)) (m_service p, (m_method p, tt)) buf) as [n b1|e b1|];
      [|reflexivity|reflexivity].
    cbn [wbind].
    assert (EQ : serialize_len (ser_s_tuple ST) LF32 (s_tuple s) b1 =
      serialize_len (ser_tuple_cons ser_header (ser_tuple_cons ST ser_tuple_nil)) LF32 (m_header p, (m_body p, tt)) b1).
    { assert (Hh : size_hint (ser_s_tuple ST) (s_tuple s) =
        size_hint (ser_tuple_cons ser_header (ser_tuple_cons ST ser_tuple_nil)) (m_header p, (m_body p, tt))).
      { rewrite <- E9. cbn. lia. }
      unfold serialize_len. rewrite Hh. destruct (_ <=? _); [|reflexivity].
      destruct (serialize (ser_uint (lf_size LF32)) _ b1) as [n1 b2|e b2|]; [|reflexivity|reflexivity]. cbn [wbind].
      unfold s_tuple. rewrite (tuple_as_header ST _ _ _ _ (h_type (m_header p)) (h_code (m_header p)) _ _ _ b2 Et Ec).
      rewrite <- Eh, E9. reflexivity. }
    rewrite EQ. reflexivity.
Qed.

(** Deserialization. *)
Lemma split_word buf : bytes_ok buf -> (4 <= length buf)%nat ->
  exists a b rest, a < 2 ^ 16 /\ b < 2 ^ 16 /\ bytes_ok rest /\ buf = be 2 a ++ be 2 b ++ rest /\
    de_uint 4 buf = DOk (a * 65536 + b) rest.
Proof.
  intros Hb Hl.
  destruct (split_at buf 2 ltac:(lia)) as (x & r1 & -> & Hx & Hr1). apply bytes_ok_app in Hb as [Bx Br1].
  destruct (split_at r1 2 ltac:(rewrite app_length in Hl; lia)) as (y & r2 & -> & Hy & Hr2). apply bytes_ok_app in Br1 as [By Br2].
  destruct (take_be 2 x Hx Bx) as (a & Ha & ->). destruct (take_be 2 y Hy By) as (b & Hb & ->).
  change (256 ^ N.of_nat 2) with 65536 in *. change (2 ^ 16) with 65536.
  exists a, b, r2. split; [exact Ha|]. split; [exact Hb|]. split; [exact Br2|]. split; [reflexivity|].
  rewrite app_assoc, <- be4_split by exact Hb. apply de_uint_be. change (256 ^ N.of_nat 4) with 4294967296. lia.
Qed.

Lemma de_u8_cases buf : bytes_ok buf ->
  (buf = [] /\ exists e, de_u8 buf = DErr e buf /\ forall A (f : N -> A), dmap f (de_uint 1 buf) = DErr e buf) \/
  (exists v rest, v < 256 /\ bytes_ok rest /\ buf = v :: rest /\ de_u8 buf = DOk v rest /\
     forall A (f : N -> A), dmap f (de_uint 1 buf) = DOk (f v) rest).
Proof.
  intros Hb. destruct buf as [|v rest].
  - left. split; [reflexivity|]. eexists. split; [reflexivity|]. intros. reflexivity.
  - right. inversion Hb; subst. exists v, rest. split; [assumption|]. split; [assumption|]. split; [reflexivity|].
    unfold de_u8. rewrite de1_ok by assumption. split; [reflexivity|]. intros. reflexivity.
Qed.

Definition two_ids : Deserialize (N * (N * unit)) := de_tuple_cons de_u16 (de_tuple_cons de_u16 de_tuple_nil).
Lemma two_short buf : (length buf < 4)%nat -> exists e rest, two_ids buf = DErr e rest /\ exists e' rest', de_uint 4 buf = DErr e' rest'.
Proof.
  intros Hl. unfold two_ids, de_tuple_cons, de_u16.
  destruct (de_uint_cases 2 buf) as [[H ->]|[H ->]]; cbn [dmap dbind].
  - eexists. eexists. split; [reflexivity|]. rewrite de_uint_short by exact Hl. eexists. eexists. reflexivity.
  - rewrite (de_uint_short 2 (skipn 2 buf)) by (rewrite skipn_length; lia). cbn [dmap dbind].
    eexists. eexists. split; [reflexivity|]. rewrite de_uint_short by exact Hl. eexists. eexists. reflexivity.
Qed.

(** The two payload decoders, on the same bytes. *)
Definition s_inner {T} (dt : Deserialize T) : Deserialize (N * (N * (N * (s_type * (s_code * (T * unit)))))) :=
  de_tuple_cons (de_uint 4) (de_tuple_cons de_u8 (de_tuple_cons de_u8 (de_tuple_cons de_s_type
    (de_tuple_cons de_s_code (de_tuple_cons dt de_tuple_nil))))).
Definition p_inner {T} (dt : Deserialize T) : Deserialize (header * (T * unit)) :=
  de_tuple_cons de_header (de_tuple_cons dt de_tuple_nil).

Lemma inner_agree {T} (dt : Deserialize T) buf : bytes_ok buf ->
  match s_inner dt buf, p_inner dt buf with
  | DOk (r, (pr, (i, (t, (c, (v, _)))))) rest, DOk (h, (v', _)) rest' =>
      r = h_client h * 65536 + h_session h /\ h_client h < 2 ^ 16 /\ h_session h < 2 ^ 16 /\
      pr = h_protocol h /\ i = h_interface h /\
      t = st_from_u8 (h_type h) /\ h_type h < 256 /\
      (exists b, b < 256 /\ c = sc_from_u8 b /\ h_code h = rc_from_u8 b) /\
      v = v' /\ rest = rest'
  | DErr _ _, DErr _ _ | DPanic, DPanic | DHang, DHang => True
  | _, _ => False
  end.
Proof.
  intros Hb. unfold s_inner, p_inner.
  destruct (Nat.lt_ge_cases (length buf) 4) as [Hl|Hl].
  { destruct (two_short buf Hl) as (e & rest & E & e' & rest' & E').
    unfold de_tuple_cons at 1. rewrite E'. cbn [dbind].
    unfold de_tuple_cons, de_header, two_ids in *. unfold de_tuple_cons in E.
    destruct (de_u16 buf) as [a r1|? ?| |]; cbn [dbind] in *; try discriminate; try exact I.
    destruct (de_u16 r1) as [b r2|? ?| |]; cbn [dbind] in *; try discriminate; try exact I. }
  destruct (split_word buf Hb Hl) as (a & b & r & Ha & Hbb & Hr & -> & E4).
  unfold de_tuple_cons, de_tuple_nil, de_header, de_s_type, de_s_code, de_return_code. rewrite E4. cbn [dbind].
  rewrite de_u16_be by exact Ha. cbn [dbind]. rewrite de_u16_be by exact Hbb. cbn [dbind].
  destruct (de_u8_cases r Hr) as [(_ & e & E1 & _)|(p & r1 & Hp & Hr1 & _ & E1 & _)]; rewrite E1; cbn [dbind]; [exact I|].
  destruct (de_u8_cases r1 Hr1) as [(_ & e & E2 & _)|(i & r2 & Hi & Hr2 & _ & E2 & _)]; rewrite E2; cbn [dbind]; [exact I|].
  destruct (de_u8_cases r2 Hr2) as [(_ & e & E3 & E3')|(t & r3 & Ht & Hr3 & _ & E3 & E3')]; rewrite E3, E3'; cbn [dbind]; [exact I|].
  destruct (de_u8_cases r3 Hr3) as [(_ & e & E5 & E5')|(c & r4 & Hc & Hr4 & _ & E5 & E5')]; rewrite !E5'; cbn [dbind]; [exact I|].
  destruct (dt r4) as [v r5|e r5| |]; cbn [dbind]; try exact I.
  cbn [h_client h_session h_protocol h_interface h_type h_code].
  repeat split; try assumption. exists c. repeat split; assumption.
Qed.

Lemma built {T} (v : T) id rq p i t c :
  s_with_code (s_with_type (s_with_interface (s_with_protocol (s_with_request (s_with_id (s_new v) id) rq) p) i) t) c =
  mkS (as_u16 (N.shiftr id 16)) (as_u16 (N.land id 0xFFFF)) (as_u16 (N.shiftr rq 16)) (as_u16 (N.land rq 0xFFFF)) p i t c v.
Proof. reflexivity. Qed.

Lemma decoders_agree {T} (dt : Deserialize T) buf : bytes_ok buf ->
  agree (de_smessage dt buf) (de_msg dt buf).
Proof.
  intros Hb. unfold de_smessage, de_msg, de_message. fold (@s_inner T dt) (@p_inner T dt) two_ids.
  destruct (Nat.lt_ge_cases (length buf) 4) as [Hl|Hl].
  { destruct (two_short buf Hl) as (e & rest & E & e' & rest' & E'). rewrite E, E'. exact I. }
  destruct (split_word buf Hb Hl) as (a & b & r & Ha & Hbb & Hr & -> & E4).
  rewrite E4. unfold two_ids. rewrite de_ids by assumption. cbn [dbind fst snd].
  unfold deserialize_len. destruct (de_uint_cases (lf_size LF32) r) as [[_ E]|[_ E]]; rewrite E; cbn [dbind]; [exact I|].
  set (L := from_be_bytes _). set (r1 := skipn _ r).
  assert (Hr1 : bytes_ok r1) by (apply bytes_ok_skipn; exact Hr).
  unfold with_take. set (k := N.to_nat _).
  assert (A := inner_agree dt (firstn k r1) (bytes_ok_firstn k r1 Hr1)).
  destruct (s_inner dt (firstn k r1)) as [[rq [pr [i [t [c [v u]]]]]] rest|e rest| |],
           (p_inner dt (firstn k r1)) as [[h [v' u']] rest'|e' rest'| |]; cbn [dbind]; try exact A; try contradiction.
  destruct A as (-> & Hc1 & Hc2 & -> & -> & -> & Ht & (cb & Hcb & -> & Ec) & -> & ->).
  cbn [agree fst snd]. split; [|reflexivity].
  change (2 ^ 16) with 65536 in *.
  assert (Q : forall x y, x < 65536 -> y < 65536 -> as_u16 (N.shiftr (x * 65536 + y) 16) = x /\ as_u16 (N.land (x * 65536 + y) 65535) = y).
  { intros x y Hx Hy. rewrite unpack32_hi, unpack32_lo by (change (2 ^ 32) with 4294967296; lia). split; lia. }
  destruct (Q _ _ Ha Hbb) as [Q1 Q2]. destruct (Q _ _ Hc1 Hc2) as [Q3 Q4].
  unfold same, msg_client, msg_session, msg_protocol, msg_interface, msg_type, msg_code.
  rewrite built.
  cbn [s_service s_method s_client s_session s_protocol s_interface s_mtype s_rcode s_payload m_service m_method m_header m_body].
  rewrite Q1, Q2, Q3, Q4. split; [reflexivity|]. split; [reflexivity|]. split; [reflexivity|]. split; [reflexivity|].
  split; [reflexivity|]. split; [reflexivity|]. split; [apply types_agree; exact Ht|].
  split; [|reflexivity]. rewrite (proj1 (codes_agree cb Hcb)), Ec. reflexivity.
Qed.

(** Every message that rsomeip can build has a counterpart, except for unknown types that
    collide with a known one. *)
Lemma counterpart {T} (s : smessage T) : smessage_ok s ->
  match s_mtype s with StUnknown v => ~ In (without_tp v) (map fst message_type_table) | _ => True end ->
  exists p, message_ok p /\ same s p.
Proof.
  intros (O1 & O2 & O3 & O4 & O5 & O6 & O7 & O8) Hu.
  exists (mkMessage (s_service s) (s_method s)
    (mkHeader (s_client s) (s_session s) (s_protocol s) (s_interface s) (st_as_u8 (s_mtype s)) (code_view (s_rcode s))) (s_payload s)).
  assert (Ht : st_as_u8 (s_mtype s) < 256). { destruct (s_mtype s); cbn; lia. }
  split.
  - split; [exact O1|]. split; [exact O2|]. split; [exact O3|]. split; [exact O4|]. split; [exact O5|]. split; [exact O6|]. split; [exact Ht|]. cbn [h_code]. destruct (s_rcode s); try exact I; exact O8.
  - repeat split. cbn [m_header h_type msg_type]. unfold msg_type. cbn [m_header h_type].
    destruct (s_mtype s) as [| | | | | | | | | |x]; try reflexivity. cbn [st_as_u8 type_view] in *.
    assert (Hx := for_all_bytes (fun b =>
       existsb (N.eqb (without_tp b)) (map fst message_type_table) ||
       match mtf_as_type b with Unknown w => N.eqb w (without_tp b) && Bool.eqb (tp_bit b) (mtf_is_tp b) | _ => false end)
       ltac:(vm_compute; reflexivity) x Ht). cbn beta in Hx. apply orb_prop in Hx as [Hx|Hx].
    + exfalso. apply Hu. apply existsb_exists in Hx as (y & Hy & E). apply N.eqb_eq in E. rewrite E. exact Hy.
    + destruct (mtf_as_type x) as [| | | | |w]; try discriminate. apply andb_prop in Hx as [Hw Htp].
      apply N.eqb_eq in Hw. apply eqb_prop in Htp. subst w. rewrite Htp. reflexivity.
Qed.
Lemma counterpart_back {T} (p : message header T) : message_ok p ->
  exists s, smessage_ok s /\ same s p.
Proof.
  intros (P1 & P2 & (H1 & H2 & H3 & H4 & H5 & H6)).
  exists (mkS (m_service p) (m_method p) (msg_client p) (msg_session p) (msg_protocol p) (msg_interface p)
    (st_from_u8 (h_type (m_header p)))
    (match msg_code p with
     | RcOk => ScOk | RcNotOk => ScNotOk | RcUnknownService => ScUnknownService | RcUnknownMethod => ScUnknownMethod
     | RcNotReady => ScNotReady | RcNotReachable => ScNotReachable | RcTimeout => ScTimeout
     | RcWrongProtocolVersion => ScWrongProtocolVersion | RcWrongInterfaceVersion => ScWrongInterfaceVersion
     | RcMalformedMessage => ScMalformedMessage | RcWrongMessageType => ScWrongMessageType
     | RcE2eRepeated => ScE2eRepeated | RcE2eWrongSequence => ScE2eWrongSequence | RcE2e => ScE2e
     | RcE2eNotAvailable => ScE2eNotAvailable | RcE2eNoNewData => ScE2eNoNewData
     | RcReserved v => ScReserved v | RcOther v => ScUnknown v end) (m_body p)).
  destruct (types_agree _ H5) as [T1 T2]. split.
  - repeat split; try assumption.
    + cbn [s_mtype]. destruct (st_from_u8 (h_type (m_header p))); try exact I. cbn [st_as_u8] in T2. subst. exact H5.
    + cbn [s_rcode]. unfold msg_code. destruct (h_code (m_header p)); try exact I; exact H6.
  - unfold same. cbn [s_service s_method s_client s_session s_protocol s_interface s_mtype s_rcode s_payload].
    repeat split; [exact T1|]. unfold msg_code. destruct (h_code (m_header p)); reflexivity.
Qed.

(** Round trip of rsomeip's own messages. *)
Lemma s_round_trip (s : smessage (list N)) rest room :
  smessage_ok s -> bytes_ok (s_payload s) -> 8 + len (s_payload s) < 2 ^ 32 -> 16 + len (s_payload s) <= room ->
  s_mtype s = st_from_u8 (st_as_u8 (s_mtype s)) -> s_rcode s = sc_from_u8 (sc_as_u8 (s_rcode s)) ->
  len (s_form s) = 16 + len (s_payload s) /\
  size_hint (ser_smessage ser_bytes) s = len (s_form s) /\
  serialize (ser_smessage ser_bytes) s (mkW [] room) = WOk (len (s_form s)) (mkW (s_form s) (room - len (s_form s))) /\
  de_smessage de_bytes (s_form s ++ rest) = DOk s rest.
Proof.
  intros (O1 & O2 & O3 & O4 & O5 & O6 & O7 & O8) Hp Hl Hr Ct Cc.
  change (2^16) with 65536 in *. change (2^8) with 256 in *. change (2^32) with 4294967296 in *.
  assert (Ht : st_as_u8 (s_mtype s) < 256). { destruct (s_mtype s); cbn; lia. }
  assert (Hc : sc_as_u8 (s_rcode s) < 256). { destruct (s_rcode s); cbn; lia. }
  assert (Eh : emits (ser_s_tuple ser_bytes) (s_tuple s)
    (be 2 (s_client s) ++ be 2 (s_session s) ++ [s_protocol s] ++ [s_interface s] ++ [st_as_u8 (s_mtype s)] ++
     [sc_as_u8 (s_rcode s)] ++ s_payload s ++ [])).
  { assert (B1 : forall v, v < 256 -> emits (ser_uint 1) v [v]) by (intros v Hv; exact (emits_u8 v Hv)).
    unfold ser_s_tuple, s_tuple.
    apply meets_tuple; [apply emits_u16|]. apply meets_tuple; [apply emits_u16|].
    apply meets_tuple; [apply emits_u8; assumption|]. apply meets_tuple; [apply emits_u8; assumption|].
    apply meets_tuple; [destruct (B1 _ Ht) as [X Y]; split; [exact X|exact Y]|].
    apply meets_tuple; [destruct (B1 _ Hc) as [X Y]; split; [exact X|exact Y]|].
    apply meets_tuple; [exact (ser_bytes_meets (s_payload s))|]. apply (ser_tuple_nil_meets tt). }
  rewrite app_nil_r in Eh.
  set (inner := be 2 (s_client s) ++ _) in Eh.
  assert (Li : len inner = 8 + len (s_payload s)).
  { unfold inner. rewrite !len_app, !be_len. change (N.of_nat 2) with 2. change (len [s_protocol s]) with 1. change (len [s_interface s]) with 1. change (len [st_as_u8 (s_mtype s)]) with 1. change (len [sc_as_u8 (s_rcode s)]) with 1. lia. }
  assert (Fm : s_form s = be 4 (s_id s) ++ be 4 (len inner) ++ inner).
  { unfold s_form, s_id. rewrite pack32 by exact O2. rewrite be4_split by exact O2. rewrite Li. unfold inner.
    rewrite <- !app_assoc. reflexivity. }
  rewrite Fm.
  assert (Lf : len (be 4 (s_id s) ++ be 4 (len inner) ++ inner) = 16 + len (s_payload s)).
  { rewrite !len_app, !be_len. lia. }
  split; [exact Lf|]. split; [|split].
  - rewrite Lf. unfold ser_smessage. cbn [size_hint]. unfold ser_u16, ser_u8. cbn [ser_uint size_hint ser_s_type ser_s_code ser_bytes]. lia.
  - assert (W1 := proj2 (ser_uint_meets 4 (s_id s)) (mkW [] room)). cbn [ser_smessage serialize].
    rewrite W1. rewrite be_len. cbn [w_room]. change (N.of_nat 4) with 4.
    destruct (N.leb_spec 4 room) as [_|?]; [|lia]. cbn [wbind].
    unfold serialize_len. destruct Eh as [Hs Hw]. rewrite Hs.
    destruct (N.leb_spec (len inner) (lf_max LF32)) as [_|Hgt]; [|cbn [lf_max] in Hgt; lia].
    change (lf_size LF32) with 4%nat.
    rewrite (proj2 (ser_uint_meets 4 (len inner)) _). rewrite be_len. change (N.of_nat 4) with 4.
    unfold appended at 1. cbn [w_room]. rewrite be_len. change (N.of_nat 4) with 4.
    destruct (N.leb_spec 4 (room - 4)) as [_|?]; [|lia]. cbn [wbind]. rewrite Hw.
    unfold appended. cbn [w_room w_data]. rewrite !be_len. change (N.of_nat 4) with 4.
    destruct (N.leb_spec (len inner) (room - 4 - 4)) as [_|?]; [|lia]. cbn [wbind].
    rewrite Lf, Li. replace (4 + (4 + (8 + len (s_payload s)))) with (16 + len (s_payload s)) by lia. replace (room - 4 - 4 - (8 + len (s_payload s))) with (room - (16 + len (s_payload s))) by lia. cbn [app]. rewrite <- !app_assoc. reflexivity.
  - assert (Hid : s_id s < 4294967296 /\ as_u16 (N.shiftr (s_id s) 16) = s_service s /\ as_u16 (N.land (s_id s) 0xFFFF) = s_method s).
    { unfold s_id. rewrite pack32 by exact O2. rewrite unpack32_hi, unpack32_lo by (change (2^32) with 4294967296; lia). repeat split; lia. }
    destruct Hid as (Hid & Hi1 & Hi2).
    assert (Hrq : s_request s < 4294967296 /\ as_u16 (N.shiftr (s_request s) 16) = s_client s /\ as_u16 (N.land (s_request s) 0xFFFF) = s_session s).
    { unfold s_request. rewrite pack32 by exact O4. rewrite unpack32_hi, unpack32_lo by (change (2^32) with 4294967296; lia). repeat split; lia. }
    destruct Hrq as (Hrq & Hr1 & Hr2).
    unfold de_smessage. rewrite <- !app_assoc. rewrite de_uint_be by exact Hid. cbn [dbind].
    fold (@s_inner (list N) de_bytes).
    rewrite (deserialize_len_exact (s_inner de_bytes) LF32 inner) by (cbn [lf_size]; change (256 ^ N.of_nat 4) with 4294967296; lia).
    assert (Ei : s_inner de_bytes inner = DOk (s_request s, (s_protocol s, (s_interface s, (s_mtype s, (s_rcode s, (s_payload s, tt)))))) []).
    2:{ rewrite Ei. cbn [dbind]. rewrite built.
      rewrite Hi1, Hi2, Hr1, Hr2. destruct s. reflexivity. }
    { unfold s_inner, inner. unfold de_tuple_cons at 1. rewrite app_assoc, <- be4_split by exact O4.
      replace (s_client s * 65536 + s_session s) with (s_request s) by (unfold s_request; rewrite pack32 by exact O4; reflexivity).
      rewrite de_uint_be by exact Hrq. cbn [dbind app].
      unfold de_tuple_cons, de_tuple_nil, de_s_type, de_s_code.
      rewrite de_u8_byte by exact O5. cbn [dbind]. rewrite de_u8_byte by exact O6. cbn [dbind].
      rewrite de1_ok by exact Ht. cbn [dmap dbind]. rewrite de1_ok by exact Hc. cbn [dmap dbind de_bytes].
      rewrite <- Ct, <- Cc. reflexivity. }
Qed.

(** A message that is too long: only the ids are written. *)
Lemma s_too_long (s : smessage (list N)) data room :
  s_method s < 2 ^ 16 -> 2 ^ 32 <= 8 + len (s_payload s) -> 4 <= room ->
  serialize (ser_smessage ser_bytes) s (mkW data room) =
  WErr (InvalidLength (8 + len (s_payload s)) (2 ^ 32 - 1)) (mkW (data ++ be 2 (s_service s) ++ be 2 (s_method s)) (room - 4)).
Proof.
  intros O2 Hl Hr. change (2^16) with 65536 in *.
  assert (Li : size_hint (ser_s_tuple ser_bytes) (s_tuple s) = 8 + len (s_payload s)).
  { unfold ser_s_tuple, s_tuple. cbn [ser_tuple_cons ser_tuple_nil size_hint ser_bytes ser_u8 ser_u16 ser_uint ser_s_type ser_s_code fst snd]. change (N.of_nat 2) with 2. change (N.of_nat 1) with 1. lia. }
  assert (W1 := proj2 (ser_uint_meets 4 (s_id s)) (mkW data room)). cbn [ser_smessage serialize].
  rewrite W1. rewrite be_len. cbn [w_room]. change (N.of_nat 4) with 4.
  destruct (N.leb_spec 4 room) as [_|?]; [|lia]. cbn [wbind].
  unfold serialize_len. rewrite Li.
  destruct (N.leb_spec (8 + len (s_payload s)) (lf_max LF32)) as [Hle|_]; [cbn [lf_max] in Hle; lia|]. cbn [wbind].
  unfold appended. cbn [w_data w_room]. rewrite be_len. unfold s_id. rewrite pack32, be4_split by exact O2. reflexivity.
Qed.

Lemma s_ids {T} (m : smessage T) id : id < 2 ^ 32 ->
  (s_id (s_with_id m id) = id /\ s_service (s_with_id m id) = id / 2 ^ 16 /\ s_method (s_with_id m id) = id mod 2 ^ 16) /\
  (s_request (s_with_request m id) = id /\ s_client (s_with_request m id) = id / 2 ^ 16 /\ s_session (s_with_request m id) = id mod 2 ^ 16) /\
  s_request (s_with_id m id) = s_request m /\ s_id (s_with_request m id) = s_id m.
Proof.
  intros Hid. unfold s_id, s_request, s_with_id, s_with_request. cbn [s_with_service s_with_method s_with_client s_with_session s_service s_method s_client s_session].
  rewrite unpack32_hi, unpack32_lo by exact Hid. change (2^32) with 4294967296 in Hid. change (2 ^ 16) with 65536.
  rewrite pack32 by lia. repeat split; lia.
Qed.

(** ** Builders *)
Lemma s_id_parts id : as_u16 (N.shiftr id 16) = (id / 2 ^ 16) mod 2 ^ 16 /\ as_u16 (N.land id 0xFFFF) = id mod 2 ^ 16.
Proof.
  unfold as_u16. rewrite N.shiftr_div_pow2. split; [reflexivity|].
  change 0xFFFF with (N.ones 16). rewrite N.land_ones. apply N.mod_mod. discriminate.
Qed.
Lemma builders {T} (ops : list (s_op T)) : forall m, let m' := fold_left s_apply ops m in
  s_service m' = last_given (fun o => match o with SetService v => Some v | SetId id => Some ((id / 2 ^ 16) mod 2 ^ 16) | _ => None end) (s_service m) ops /\
  s_method m' = last_given (fun o => match o with SetMethod v => Some v | SetId id => Some (id mod 2 ^ 16) | _ => None end) (s_method m) ops /\
  s_client m' = last_given (fun o => match o with SetClient v => Some v | SetRequest r => Some ((r / 2 ^ 16) mod 2 ^ 16) | _ => None end) (s_client m) ops /\
  s_session m' = last_given (fun o => match o with SetSession v => Some v | SetRequest r => Some (r mod 2 ^ 16) | _ => None end) (s_session m) ops /\
  s_protocol m' = last_given (fun o => match o with SetProtocol v => Some v | _ => None end) (s_protocol m) ops /\
  s_interface m' = last_given (fun o => match o with SetInterface v => Some v | _ => None end) (s_interface m) ops /\
  s_mtype m' = last_given (fun o => match o with SetType t => Some t | _ => None end) (s_mtype m) ops /\
  s_rcode m' = last_given (fun o => match o with SetCode c => Some c | _ => None end) (s_rcode m) ops /\
  s_payload m' = last_given (fun o => match o with SetPayload p => Some p | _ => None end) (s_payload m) ops.
Proof.
  induction ops as [|o ops IH]; intros m; [repeat split|]. specialize (IH (s_apply m o)). cbv zeta in *. cbn [fold_left last_given].
  destruct IH as (I1 & I2 & I3 & I4 & I5 & I6 & I7 & I8 & I9). rewrite I1, I2, I3, I4, I5, I6, I7, I8, I9.
  destruct o; cbn [s_apply]; repeat split; unfold s_with_id, s_with_request;
    cbn [s_service s_method s_client s_session s_protocol s_interface s_mtype s_rcode s_payload
         s_with_service s_with_method s_with_client s_with_session s_with_protocol s_with_interface s_with_type s_with_code s_with_payload];
    f_equal; apply s_id_parts.
Qed.
