(** Proofs about the texts of the errors. *)
From Coq Require Import List NArith Bool Ascii String Lia.
From Verif Require Import BytesModel BytesProofs StringModel StringProofs UniverseModel UniverseProofs PrimitivesModel MessageModel TpModel EndpointModel WireSpec MessageSpec MessageProofs MessageTheorems
  DisplayModel DisplaySpec DisplayTheorems ErrorDisplayModel ErrorDisplaySpec.
Import ListNotations.
Open Scope N_scope.

(** * Upper case *)

Lemma upper_value c d : digit_value c = Some d -> upper_digit_value (upper_char c) = Some d.
Proof.
  destruct c as [[] [] [] [] [] [] [] []]; vm_compute; intros H; try discriminate H; exact H.
Qed.

Lemma upper_length s : String.length (upper s) = String.length s.
Proof. induction s as [|c s IH]; cbn; [reflexivity|]. f_equal. exact IH. Qed.

Lemma upper_denotes s v : denotes 16 s v -> upper_hex (upper s) v.
Proof.
  induction 1 as [|c s d v E L D IH]; [constructor|]. cbn [upper]. rewrite <- (upper_length s).
  constructor; [apply upper_value; exact E|exact IH].
Qed.

Lemma upper_unique s v v' : upper_hex s v -> upper_hex s v' -> v = v'.
Proof.
  intros D. revert v'. induction D as [|c s d v E D IH]; intros v' D'; inversion D' as [|c' s' d' v'' E' D'']; subst; [reflexivity|].
  rewrite E in E'. injection E' as <-. rewrite (IH _ D''). reflexivity.
Qed.

Lemma upper_u8 v : v < 2 ^ 8 -> String.length (fmt_02X v) = 2%nat /\ upper_hex (fmt_02X v) v.
Proof.
  intros H. destruct (u8_printed v H) as [L D]. unfold fmt_02X. rewrite upper_length. split; [exact L|].
  apply upper_denotes. exact D.
Qed.
Lemma upper_u16 v : v < 2 ^ 16 -> String.length (fmt_04X v) = 4%nat /\ upper_hex (fmt_04X v) v.
Proof.
  intros H. destruct (u16_printed v H) as [L D]. unfold fmt_04X. rewrite upper_length. split; [exact L|].
  apply upper_denotes. exact D.
Qed.

(** * Decimal numbers *)

Lemma fmt_decimal v : decimal (fmt_dec v) v.
Proof.
  destruct (dec_printed v) as [D [[_ E]|(c & s & d & E & V & N0)]]; (split; [exact D|]).
  - left. exact E.
  - right. exists c, s, d. repeat split; assumption.
Qed.

(** What follows a number starts with a character that is no digit: the number ends there. *)
Lemma number_ends s v s' v' c t t' : digit_value c = None -> denotes 10 s v -> denotes 10 s' v' ->
  (s ++ String c t)%string = (s' ++ String c t')%string -> s = s' /\ t = t'.
Proof.
  intros NC D. revert s' v'. induction D as [|x s d v E L D IH]; intros s' v' D' H; destruct D' as [|x' s' d' v' E' L' D']; cbn [append] in H.
  - injection H as H. split; [reflexivity|exact H].
  - injection H as -> _. congruence.
  - injection H as -> _. congruence.
  - injection H as <- H. destruct (IH _ _ D' H) as [-> ->]. split; reflexivity.
Qed.

Lemma dec_ends a a' c t t' : digit_value c = None ->
  (fmt_dec a ++ String c t)%string = (fmt_dec a' ++ String c t')%string -> a = a' /\ t = t'.
Proof.
  intros NC H. destruct (number_ends _ a _ a' _ _ _ NC (proj1 (dec_printed a)) (proj1 (dec_printed a')) H) as [E F].
  split; [apply fmt_dec_inj; exact E|exact F].
Qed.

(** * Each error *)

Ltac text H := cbn [append] in H; repeat (injection H as H); try discriminate H.

Lemma ser_text e : match e with
  | InvalidLength required maximum => exists a b, decimal a required /\ decimal b maximum /\
      show_ser_error e = ("length exceeds capacity of length field: " ++ a ++ " vs " ++ b)%string
  | SerOther (OffsetTooLarge maximum actual) => exists a b, decimal a maximum /\ decimal b actual /\
      show_ser_error e = ("offset exceeds max value: max=" ++ a ++ " actual=" ++ b)%string
  end.
Proof.
  destruct e as [r m|[m a]]; [exists (fmt_dec r), (fmt_dec m)|exists (fmt_dec m), (fmt_dec a)];
    (split; [apply fmt_decimal|split; [apply fmt_decimal|reflexivity]]).
Qed.

Lemma ser_told_apart e e' : show_ser_error e = show_ser_error e' -> e = e'.
Proof.
  intros H. destruct e as [r m|[m a]], e' as [r' m'|[m' a']]; cbn [show_ser_error] in H; text H.
  - apply dec_ends in H; [|reflexivity]. destruct H as [-> H]. text H. apply fmt_dec_inj in H. subst. reflexivity.
  - apply dec_ends in H; [|reflexivity]. destruct H as [-> H]. text H. apply fmt_dec_inj in H. subst. reflexivity.
Qed.

Lemma de_text std e : de_error_ok e -> match e with
  | InsufficientData expected available => exists a b, decimal a expected /\ decimal b available /\
      show_de_error std e = ("insufficient data in buffer: " ++ a ++ " vs " ++ b)%string
  | DeOther (BadUtf8Mark b) => exists a, String.length a = 2%nat /\ upper_hex a b /\
      show_de_error std e = ("incorrect UTF-8 Byte Order Mark: 'EF BB BF' vs 'EF BB " ++ a ++ "'")%string
  | DeOther InvalidUtf8 => show_de_error std e = ("invalid UTF-8 string: " ++ std)%string
  | DeOther InvalidUtf16 => show_de_error std e = ("invalid UTF-16 string: " ++ std)%string
  | DeOther (InvalidMark v) => exists a, String.length a = 4%nat /\ upper_hex a v /\
      show_de_error std e = ("invalid Byte Order Mark: " ++ a)%string
  end.
Proof.
  intros O. destruct e as [x y|[b| | |v]]; cbn [de_error_ok] in O.
  - exists (fmt_dec x), (fmt_dec y). split; [apply fmt_decimal|split; [apply fmt_decimal|reflexivity]].
  - exists (fmt_02X b). destruct (upper_u8 b O) as [L D]. repeat split; assumption.
  - reflexivity.
  - reflexivity.
  - exists (fmt_04X v). destruct (upper_u16 v O) as [L D]. repeat split; assumption.
Qed.

Lemma de_told_apart std std' e e' : de_error_ok e -> de_error_ok e' ->
  show_de_error std e = show_de_error std' e' -> e = e'.
Proof.
  intros O O' H. destruct e as [x y|[b| | |v]], e' as [x' y'|[b'| | |v']]; cbn [show_de_error de_error_ok] in H, O, O'; text H; try reflexivity.
  - apply dec_ends in H; [|reflexivity]. destruct H as [-> H]. text H. apply fmt_dec_inj in H. subst. reflexivity.
  - destruct (upper_u8 b O) as [L D], (upper_u8 b' O') as [L' D']. apply append_inj in H; [|congruence]. destruct H as [H _].
    rewrite <- H in D'. rewrite (upper_unique _ _ _ D D'). reflexivity.
  - destruct (upper_u16 v O) as [L D], (upper_u16 v' O') as [L' D'].
    rewrite <- H in D'. rewrite (upper_unique _ _ _ D D'). reflexivity.
Qed.

Lemma tp_text e : match e with
  | UnexpectedSegment _ => show_tp_error e = "not expecting more segments"%string
  | WrongOffset expected other => exists a b, decimal a expected /\ decimal b (tp_offset other) /\
      show_tp_error e = ("tried to join header with wrong offset: expected=" ++ a ++ " actual=" ++ b)%string
  end.
Proof.
  destruct e as [o|x o]; [reflexivity|]. exists (fmt_dec x), (fmt_dec (tp_offset o)).
  split; [apply fmt_decimal|split; [apply fmt_decimal|reflexivity]].
Qed.

Lemma tp_told_apart e e' : show_tp_error e = show_tp_error e' <->
  match e, e' with
  | UnexpectedSegment _, UnexpectedSegment _ => True
  | WrongOffset x o, WrongOffset x' o' => x = x' /\ tp_offset o = tp_offset o'
  | _, _ => False
  end.
Proof.
  split.
  - intros H. destruct e as [o|x o], e' as [o'|x' o']; cbn [show_tp_error] in H; text H; try exact I.
    apply dec_ends in H; [|reflexivity]. destruct H as [-> H]. text H. apply fmt_dec_inj in H. split; [reflexivity|exact H].
  - destruct e as [o|x o], e' as [o'|x' o']; try contradiction; [reflexivity|]. intros [-> E]. cbn [show_tp_error]. rewrite E. reflexivity.
Qed.

Lemma message_error_told_apart e e' : show_message_error e = show_message_error e' -> e = e'.
Proof.
  intros H. destruct e as [c|c], e' as [c'|c']; cbn [show_message_error] in H; text H;
    apply codes_told_apart in H; subst; reflexivity.
Qed.

(** * The errors of the endpoint *)

Lemma header_length (h : header) : header_ok h -> String.length (show_header h) = 15%nat.
Proof.
  intros (A & B & _ & _ & T & C). apply valid_code_byte in C. unfold show_header. change fmt_02x with show_u8.
  repeat (rewrite ?append_length; cbn [append String.length]). rewrite ?u16_length, ?u8_length by assumption. reflexivity.
Qed.
Lemma message_length {B} (m : message header B) : message_ok m -> String.length (show_message show_header m) = 25%nat.
Proof.
  intros (A & D & H). unfold show_message. repeat (rewrite ?append_length; cbn [append String.length]).
  rewrite ?u16_length, ?header_length by assumption. reflexivity.
Qed.

Lemma endpoint_text {B} std (e : endpoint_error B) : match e with
  | InvalidData d => show_endpoint_error std e = ("could not deserialize a message: " ++ show_de_error std d)%string
  | InvalidInput s => show_endpoint_error std e = ("could not serialize the message: " ++ show_ser_error s)%string
  | InvalidMessage m c => show_endpoint_error std e =
      ("invalid message: " ++ show_message show_header m ++ " reason=" ++ show_return_code c)%string
  | MessageDropped m c => show_endpoint_error std e =
      ("message dropped: " ++ show_message show_header m ++ " reason=" ++ show_return_code c)%string
  end.
Proof. destruct e; reflexivity. Qed.

(** What an error says: which error it is, and the fields that its text shows. *)
Lemma endpoint_told_apart {B C} std std' (e : endpoint_error B) (e' : endpoint_error C) : endpoint_error_ok e -> endpoint_error_ok e' ->
  show_endpoint_error std e = show_endpoint_error std' e' ->
  match e, e' with
  | InvalidData d, InvalidData d' => d = d'
  | InvalidInput s, InvalidInput s' => s = s'
  | InvalidMessage m c, InvalidMessage m' c' | MessageDropped m c, MessageDropped m' c' =>
      c = c' /\ m_service m = m_service m' /\ m_method m = m_method m' /\ msg_client m = msg_client m' /\
      msg_session m = msg_session m' /\ h_type (m_header m) = h_type (m_header m') /\
      rc_as_u8 (msg_code m) = rc_as_u8 (msg_code m')
  | _, _ => False
  end.
Proof.
  intros O O' H. destruct e as [d|s|m c|m c], e' as [d'|s'|m' c'|m' c']; cbn [show_endpoint_error endpoint_error_ok] in H, O, O'; text H.
  - eapply de_told_apart; eassumption.
  - apply ser_told_apart. exact H.
  - apply append_inj in H; [|rewrite !message_length by assumption; reflexivity]. destruct H as [H1 H]. text H.
    apply codes_told_apart in H. apply messages_told_apart in H1; [|assumption|assumption]. split; [exact H|exact H1].
  - apply append_inj in H; [|rewrite !message_length by assumption; reflexivity]. destruct H as [H1 H]. text H.
    apply codes_told_apart in H. apply messages_told_apart in H1; [|assumption|assumption]. split; [exact H|exact H1].
Qed.

(** * The errors that reading gives have these ranges *)

Lemma uint_error_ok k buf e rest : de_uint k buf = DErr e rest -> de_error_ok e.
Proof.
  intros E. destruct (de_uint_cases k buf) as [[_ E']|[_ E']]; rewrite E' in E; [|discriminate]. injection E as <- _. exact I.
Qed.

Lemma raw_error_ok d : (forall buf e rest, d buf = DErr e rest -> de_error_ok e) ->
  forall buf e rest, de_raw d buf = DErr e rest -> de_error_ok e.
Proof.
  intros H buf e rest. unfold de_raw. generalize (S (List.length buf)). intros fuel. revert buf e rest.
  induction fuel as [|fuel IH]; intros buf e rest E; cbn [raw_loop] in E; [discriminate|].
  destruct (d buf) as [v r|x r| |] eqn:Ed; cbn [dbind] in E; try discriminate.
  - destruct (v =? 0); [discriminate|]. destruct (raw_loop d fuel r) as [y r'|x r'| |] eqn:Er; cbn [dmap dbind] in E; try discriminate.
    injection E as <- _. eapply IH. exact Er.
  - injection E as <- _. eapply H. exact Ed.
Qed.

Lemma string_error_ok host buf e rest : bytes_ok buf -> de_string host buf = DErr e rest -> de_error_ok e.
Proof.
  intros Hb E. unfold de_string in E. destruct (de_uint_cases 2 buf) as [[H E']|[H E']]; rewrite E' in E; cbn [dbind] in E.
  { injection E as <- _. exact I. }
  assert (R := from_be_lt 2 buf Hb H). assert (Hr := bytes_ok_skipn 2 buf Hb).
  revert E R Hr. generalize (from_be_bytes (firstn 2 buf)), (skipn 2 buf). intros mark r E R Hr.
  destruct (mark =? 0xEFBB).
  - unfold deserialize_utf8 in E. destruct (de_uint_cases 1 r) as [[H1 E1]|[H1 E1]]; rewrite E1 in E; cbn [dbind] in E.
    { injection E as <- _. exact I. }
    assert (R1 := from_be_lt 1 r Hr H1). destruct (negb _) in E.
    + injection E as <- _. exact R1.
    + destruct (de_raw (de_uint 1) (skipn 1 r)) as [raw r'|x r'| |] eqn:Er; cbn [dbind] in E; try discriminate.
      * destruct (from_utf8 raw); [discriminate|]. injection E as <- _. exact I.
      * injection E as <- _. eapply raw_error_ok; [|exact Er]. apply uint_error_ok.
  - assert (U : forall b, deserialize_utf16 host b r = DErr e rest -> de_error_ok e).
    { intros b F. unfold deserialize_utf16 in F.
      destruct (de_raw _ r) as [raw r'|x r'| |] eqn:Er in F; cbn [dbind] in F; try discriminate.
      - destruct (from_utf16 raw); [discriminate|]. injection F as <- _. exact I.
      - injection F as <- _. eapply raw_error_ok; [|exact Er]. intros q y z G. destruct b; [eapply uint_error_ok; exact G|].
        destruct (de_uint 2 q) as [v r1|y1 r1| |] eqn:Eq; cbn [dmap dbind] in G; try discriminate.
        injection G as <- _. eapply uint_error_ok. exact Eq. }
    destruct (mark =? 0xFEFF); [eapply U; exact E|]. destruct (mark =? 0xFFFE); [eapply U; exact E|].
    injection E as <- _. exact R.
Qed.

Lemma de_error_reached t : forall buf e rest, bytes_ok buf -> de t buf = DErr e rest -> de_error_ok e.
Proof.
  ty_induction t; intros buf e rest Hb E.
  - eapply uint_error_ok. exact E.
  - cbn [de] in E. unfold de_sint in E. destruct (de_uint (isize_bytes s) buf) as [v r|x r| |] eqn:Ed; cbn [dmap dbind] in E; try discriminate.
    injection E as <- _. eapply uint_error_ok. exact Ed.
  - eapply uint_error_ok. exact E.
  - cbn [de] in E. unfold de_bool in E. destruct (len buf <? 1); [injection E as <- _; exact I|].
    destruct (get_uint 1 buf) as [[v r]|]; discriminate.
  - discriminate.
  - eapply string_error_ok; [exact Hb|exact E].
  - cbn [de] in E. exfalso. revert buf Hb e rest E. induction n as [|n IHn]; intros buf Hb e rest E; cbn [de_array] in E; [discriminate|].
    destruct (de t buf) as [x r|x r| |] eqn:Ex; try discriminate;
      (destruct (de_array (de t) (default t) n r) as [y r'|y r'| |] eqn:Ey; cbn [dmap dbind] in E; try discriminate;
       eapply IHn; [|exact Ey]).
    + eapply sane_ok; [apply de_sane|exact Hb|exact Ex].
    + eapply sane_err; [apply de_sane|exact Hb|exact Ex].
  - cbn [de] in E. unfold de_vec in E. revert E. generalize (S (List.length buf)). intros fuel.
    revert buf e rest Hb. induction fuel as [|fuel IHf]; intros buf e rest Hb E; cbn [vec_loop] in E; [discriminate|].
    destruct buf as [|b buf]; [discriminate|].
    destruct (de t (b :: buf)) as [x r|x r| |] eqn:Ex; cbn [dbind] in E; try discriminate.
    + destruct (vec_loop (de t) fuel r) as [y r'|y r'| |] eqn:Ey; cbn [dmap dbind] in E; try discriminate.
      injection E as <- _. eapply IHf; [|exact Ey]. eapply sane_ok; [apply de_sane|exact Hb|exact Ex].
    + injection E as <- _. eapply IH; [exact Hb|exact Ex].
  - discriminate.
  - change (de_tuple_cons (de t) (de (TTuple ts)) buf = DErr e rest) in E. unfold de_tuple_cons in E.
    destruct (de t buf) as [x r|x r| |] eqn:Ex; cbn [dbind] in E; try discriminate.
    + destruct (de (TTuple ts) r) as [y r'|y r'| |] eqn:Ey; cbn [dbind] in E; try discriminate.
      injection E as <- _. eapply IHts; [|exact Ey]. eapply sane_ok; [apply de_sane|exact Hb|exact Ex].
    + injection E as <- _. eapply IHt; [exact Hb|exact Ex].
  - cbn [de] in E. unfold deserialize_len in E.
    destruct (de_uint (lf_size lf) buf) as [n r|x r| |] eqn:En; cbn [dbind] in E; try discriminate.
    + unfold with_take in E. destruct (de t (firstn _ r)) as [x r'|x r'| |] eqn:Ex in E; try discriminate.
      injection E as <- _. eapply IH; [|exact Ex]. apply bytes_ok_firstn. eapply sane_ok; [apply de_uint_sane|exact Hb|exact En].
    + injection E as <- _. eapply uint_error_ok. exact En.
Qed.

(** Whatever arrives, an error of [poll] is one of those. *)
Lemma poll_error_reached ep buf e rest : bytes_ok buf -> poll de_bytes ep buf = PErr e rest -> endpoint_error_ok e.
Proof.
  intros Hb E. destruct (N.ltb_spec (len buf) 16) as [X|X].
  - destruct (proj1 (lying_length _ Hb) X) as (a & b & r & Y & _). unfold poll in E. rewrite Y in E. injection E as <- _. exact I.
  - destruct (parse_header _ Hb X) as (s & mm & L & h & tail & Hs & Hm & HL & Hh & Hc & Ht & Eq).
    destruct (decode_form s mm L h tail Hs Hm HL Hh Hc Ht) as [D1 D2]. rewrite <- Eq in D1, D2.
    destruct (N.ltb_spec L 8) as [Y|Y].
    { destruct (D2 Y) as (a & b & r & Z & _). unfold poll in E. rewrite Z in E. injection E as <- _. exact I. }
    unfold poll in E. rewrite (D1 Y) in E. revert E. set (m := mkMessage s mm h _). intros E.
    assert (M : message_ok m) by (repeat split; cbn; try assumption; apply Hh).
    unfold ep_invalid_or_dropped in E.
    repeat match type of E with
    | (if ?b then _ else _) = _ => destruct b
    | match ?x with _ => _ end = _ => destruct x
    end; try discriminate; injection E as <- _; try destruct (mt_eqb _ _); exact M.
Qed.
