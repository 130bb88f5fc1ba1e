(** Proofs about SOME/IP messages. *)
From Coq Require Import List NArith ZArith Bool Lia ZifyBool ZifyNat ZifyN.
From Verif Require Import BytesModel UniverseModel WireSpec BytesProofs UniverseProofs StringProofs
  PrimitivesModel PrimitivesSpec PrimitivesProofs PrimitivesTheorems MessageModel MessageSpec.
Import ListNotations.
Open Scope N_scope.
Ltac Zify.zify_post_hook ::= Z.div_mod_to_equations.
Arguments N.add : simpl never. Arguments N.mul : simpl never. Arguments N.pow : simpl never.
Arguments N.of_nat : simpl never. Arguments N.sub : simpl never.
Arguments N.div : simpl never. Arguments N.modulo : simpl never.

(** * Serialization *)

Definition emits {A} (S : Serialize A) (v : A) (bs : list N) : Prop :=
  size_hint S v = len bs /\ writes (serialize S v) bs.

Lemma emits_u16 v : emits ser_u16 v (be 2 v).
Proof. apply (ser_uint_meets 2 v). Qed.
Lemma emits_u8 v : v < 256 -> emits ser_u8 v [v].
Proof. intros H. rewrite <- (be1 v H). apply (ser_uint_meets 1 v). Qed.
Lemma emits_code c : valid_code c -> emits ser_return_code c [rc_as_u8 c].
Proof.
  intros H. rewrite <- (be1 _ (rc_small c H)). destruct (ser_uint_meets 1 (rc_as_u8 c)) as [H1 H2].
  split; [exact H1|exact H2].
Qed.

Lemma emits_header h : header_ok h -> emits ser_header h (header_form h).
Proof.
  intros (H1 & H2 & H3 & H4 & H5 & H6).
  assert (E : emits ser_header_tuple (header_tuple h)
    (be 2 (h_client h) ++ be 2 (h_session h) ++ [h_protocol h] ++ [h_interface h] ++ [h_type h] ++ [rc_as_u8 (h_code h)] ++ [])).
  { repeat (apply meets_tuple; [first [apply emits_u16 | apply emits_u8; assumption | apply emits_code; assumption]|]).
    apply (ser_tuple_nil_meets tt). }
  exact E.
Qed.

Lemma header_form_len h : len (header_form h) = 8.
Proof. unfold header_form. rewrite !len_app, !be_len. reflexivity. Qed.

Section Message.
Context {H B : Type} (SH : Serialize H) (SB : Serialize B).

Lemma message_hint (m : message H B) xh xb :
  emits SH (m_header m) xh -> emits SB (m_body m) xb ->
  size_hint (ser_message SH SB) m = 8 + len xh + len xb.
Proof. intros [E1 _] [E2 _]. cbn [ser_message size_hint]. rewrite E1, E2. cbn. lia. Qed.

Lemma message_unfold (m : message H B) b :
  serialize (ser_message SH SB) m b =
  wseq (serialize (ser_tuple_cons ser_u16 (ser_tuple_cons ser_u16 ser_tuple_nil)) (m_service m, (m_method m, tt)))
    (serialize_len (ser_tuple_cons SH (ser_tuple_cons SB ser_tuple_nil)) LF32 (m_header m, (m_body m, tt))) b.
Proof. reflexivity. Qed.

Lemma ids_writes s m :
  writes (serialize (ser_tuple_cons ser_u16 (ser_tuple_cons ser_u16 ser_tuple_nil)) (s, (m, tt))) (be 2 s ++ be 2 m).
Proof.
  assert (E : emits (ser_tuple_cons ser_u16 (ser_tuple_cons ser_u16 ser_tuple_nil)) (s, (m, tt)) (be 2 s ++ be 2 m ++ [])).
  { repeat (apply meets_tuple; [apply emits_u16|]). apply (ser_tuple_nil_meets tt). }
  rewrite app_nil_r in E. exact (proj2 E).
Qed.

Lemma payload_emits (m : message H B) xh xb :
  emits SH (m_header m) xh -> emits SB (m_body m) xb ->
  emits (ser_tuple_cons SH (ser_tuple_cons SB ser_tuple_nil)) (m_header m, (m_body m, tt)) (xh ++ xb).
Proof.
  intros Eh Eb.
  assert (E : emits (ser_tuple_cons SH (ser_tuple_cons SB ser_tuple_nil)) (m_header m, (m_body m, tt)) (xh ++ xb ++ [])).
  { apply meets_tuple; [exact Eh|]. apply meets_tuple; [exact Eb|]. apply (ser_tuple_nil_meets tt). }
  rewrite app_nil_r in E. exact E.
Qed.

Lemma message_writes (m : message H B) xh xb :
  emits SH (m_header m) xh -> emits SB (m_body m) xb -> len xh + len xb < 2 ^ 32 ->
  writes (serialize (ser_message SH SB) m)
    (be 2 (m_service m) ++ be 2 (m_method m) ++ be 4 (len xh + len xb) ++ xh ++ xb).
Proof.
  intros Eh Eb Hl. assert (E := payload_emits m xh xb Eh Eb). destruct E as [Hs Hw]. rewrite len_app in Hs.
  eapply writes_ext; [intros b; apply message_unfold|].
  rewrite (app_assoc (be 2 _)). apply wseq_writes; [apply ids_writes|].
  eapply writes_ext; [intros b; apply serialize_len_unfold|]. rewrite Hs.
  change (lf_max LF32) with 4294967295. change (2 ^ 32) with 4294967296 in Hl.
  destruct (N.leb_spec (len xh + len xb) 4294967295); [|lia].
  change (be 4 (len xh + len xb) ++ xh ++ xb) with (be 4 (len xh + len xb) ++ (xh ++ xb)).
  apply wseq_writes; [apply ser_uint_writes|exact Hw].
Qed.

Lemma message_fails (m : message H B) xh xb :
  emits SH (m_header m) xh -> emits SB (m_body m) xb -> 2 ^ 32 <= len xh + len xb ->
  fails (serialize (ser_message SH SB) m)
    (be 2 (m_service m) ++ be 2 (m_method m)) (InvalidLength (len xh + len xb) (2 ^ 32 - 1)).
Proof.
  intros Eh Eb Hl. destruct (payload_emits m xh xb Eh Eb) as [Hs Hw]. rewrite len_app in Hs.
  eapply fails_ext; [intros b; apply message_unfold|].
  rewrite <- (app_nil_r (be 2 (m_method m))), app_assoc. apply wseq_fails_r; [apply ids_writes|].
  intros b. rewrite serialize_len_unfold, Hs, appended_nil.
  change (lf_max LF32) with 4294967295. change (2 ^ 32) with 4294967296 in Hl.
  destruct (N.leb_spec (len xh + len xb) 4294967295); [lia|].
  change (len (@nil N)) with 0. destruct (N.leb_spec 0 (w_room b)); [reflexivity|lia].
Qed.
End Message.

Lemma message_unencodable {H} (SH : Serialize H) t (m : message H (value t)) xh :
  emits SH (m_header m) xh -> valid t (m_body m) = true -> wire t (m_body m) = None ->
  exists pre required maximum, maximum < required /\
    fails (serialize (ser_message SH (ser t)) m) pre (InvalidLength required maximum).
Proof.
  intros Eh Hv Hw.
  assert (Hb := ser_wire t (m_body m) Hv).
  assert (Hm : meets (ser_tuple_cons SH (ser_tuple_cons (ser t) ser_tuple_nil))
     (fun v => concat_all [Some xh; concat_all [wire t (fst (snd v)); Some []]]) (m_header m, (m_body m, tt))).
  { apply (ser_tuple_cons_meets SH (ser_tuple_cons (ser t) ser_tuple_nil) (fun _ => Some xh)
             (fun v => concat_all [wire t (fst v); Some []])).
    - exact Eh.
    - apply (ser_tuple_cons_meets (ser t) ser_tuple_nil (wire t) (fun _ => Some [])); [exact Hb|].
      apply ser_tuple_nil_meets. }
  apply (ser_with_len_meets _ _ LF32) in Hm. unfold meets in Hm. cbn [fst snd] in Hm.
  rewrite Hw in Hm. cbn [concat_all] in Hm.
  destruct Hm as (pre & r & x & Hlt & Hf).
  exists ((be 2 (m_service m) ++ be 2 (m_method m)) ++ pre), r, x. split; [exact Hlt|].
  eapply fails_ext; [intros b; apply message_unfold|]. apply wseq_fails_r; [apply ids_writes|exact Hf].
Qed.

(** * Deserialization *)

Lemma de_u16_be v rest : v < 2 ^ 16 -> de_u16 (be 2 v ++ rest) = DOk v rest.
Proof. intros Hv. unfold de_u16. rewrite de_uint_be by exact Hv. reflexivity. Qed.
Lemma de_u8_byte v rest : v < 256 -> de_u8 (v :: rest) = DOk v rest.
Proof. intros Hv. unfold de_u8. rewrite de1_ok by exact Hv. reflexivity. Qed.
Lemma de_code_byte v rest : v < 256 -> de_return_code (v :: rest) = DOk (rc_from_u8 v) rest.
Proof. intros Hv. unfold de_return_code. rewrite de1_ok by exact Hv. reflexivity. Qed.

Lemma de_u16_sane : sane de_u16. Proof. apply (dmap_sane (fun v => v)), de_uint_sane. Qed.
Lemma de_u8_sane : sane de_u8. Proof. apply (dmap_sane (fun v => v)), de_uint_sane. Qed.
Lemma de_code_sane : sane de_return_code. Proof. apply dmap_sane, de_uint_sane. Qed.

Lemma de_header_sane : sane de_header.
Proof.
  intros buf. unfold de_header.
  repeat first [ apply dbind_sane; [first [apply de_u16_sane|apply de_u8_sane|apply de_code_sane]|intros ? ?]
               | exists []; reflexivity ].
Qed.

Lemma de_nil_sane : sane de_tuple_nil. Proof. intros buf. exists []. reflexivity. Qed.

Lemma de_message_sane {H B} (dh : Deserialize H) (db : Deserialize B) : sane dh -> sane db -> sane (de_message dh db).
Proof.
  intros Hh Hb buf. unfold de_message. apply dbind_sane.
  - apply de_tuple_cons_sane; [apply de_u16_sane|]. apply de_tuple_cons_sane; [apply de_u16_sane|apply de_nil_sane].
  - intros v rest. apply dbind_sane; [|intros ? ?; exists []; reflexivity].
    apply deserialize_len_sane. apply de_tuple_cons_sane; [exact Hh|]. apply de_tuple_cons_sane; [exact Hb|apply de_nil_sane].
Qed.

Lemma de_msg_sane : sane (de_msg de_bytes).
Proof. apply de_message_sane; [apply de_header_sane|apply de_bytes_sane]. Qed.

Lemma header_reads h : header_ok h -> canonical_header h -> reads de_header (header_form h) h.
Proof.
  intros (H1 & H2 & H3 & H4 & H5 & H6) Hc rest. unfold header_form, de_header.
  rewrite <- !app_assoc. rewrite de_u16_be by exact H1. cbn [dbind].
  rewrite de_u16_be by exact H2. cbn [dbind app].
  rewrite de_u8_byte by exact H3. cbn [dbind]. rewrite de_u8_byte by exact H4. cbn [dbind].
  rewrite de_u8_byte by exact H5. cbn [dbind].
  rewrite de_code_byte by (apply rc_small; exact H6). cbn [dbind].
  rewrite rc_from_as by exact Hc. destruct h; reflexivity.
Qed.

Lemma de_ids s m rest : s < 2 ^ 16 -> m < 2 ^ 16 ->
  de_tuple_cons de_u16 (de_tuple_cons de_u16 de_tuple_nil) (be 2 s ++ be 2 m ++ rest) = DOk (s, (m, tt)) rest.
Proof.
  intros Hs Hm. unfold de_tuple_cons. rewrite de_u16_be by exact Hs. cbn [dbind].
  rewrite de_u16_be by exact Hm. reflexivity.
Qed.

Lemma message_reads {H B} (dh : Deserialize H) (db : Deserialize B) (m : message H B) xh xb :
  m_service m < 2 ^ 16 -> m_method m < 2 ^ 16 ->
  reads dh xh (m_header m) -> db xb = DOk (m_body m) [] -> len xh + len xb < 2 ^ 32 ->
  reads (de_message dh db)
    (be 2 (m_service m) ++ be 2 (m_method m) ++ be 4 (len xh + len xb) ++ xh ++ xb) m.
Proof.
  intros Hs Hm Hh Hb Hl rest. unfold de_message. rewrite <- !app_assoc.
  rewrite de_ids by assumption. cbn [dbind].
  assert (E := deserialize_len_exact (de_tuple_cons dh (de_tuple_cons db de_tuple_nil)) LF32 (xh ++ xb) rest).
  rewrite len_app in E. rewrite <- app_assoc in E. change (lf_size LF32) with 4%nat in E.
  rewrite E by exact Hl. unfold de_tuple_cons. rewrite Hh. cbn [dbind]. rewrite Hb. cbn [dbind de_tuple_nil app fst snd].
  destruct m; reflexivity.
Qed.

(** * Arbitrary input *)

Definition insufficient {A} (r : dres A) : Prop :=
  exists e a rest, r = DErr (InsufficientData e a) rest /\ a < e.

Ltac step_uint :=
  match goal with |- context [de_uint ?k ?buf] =>
    let H := fresh "H" in
    destruct (de_uint_cases k buf) as [[H ->]|[H ->]]; cbn [dmap dbind];
    [ do 3 eexists; split; [reflexivity|unfold len in *; lia]
    | rewrite ?skipn_length in H ]
  end.

Lemma header_short buf : (length buf < 8)%nat -> insufficient (de_header buf).
Proof.
  intros Hl. unfold de_header, de_u16, de_u8, de_return_code, insufficient.
  repeat step_uint. exfalso. rewrite ?skipn_length in *. lia.
Qed.

Lemma insufficient_bind {A B} (r : dres A) (k : A -> list N -> dres B) : insufficient r -> insufficient (dbind r k).
Proof. intros (e & a & rest & -> & Hlt). exists e, a, rest. split; [reflexivity|exact Hlt]. Qed.
Lemma insufficient_take {A} (d : Deserialize A) n buf :
  insufficient (d (firstn (N.to_nat (N.min n (len buf))) buf)) -> insufficient (with_take d n buf).
Proof.
  intros (e & a & rest & E & Hlt). unfold with_take. rewrite E. exists e, a. eexists. split; [reflexivity|exact Hlt].
Qed.

Lemma message_short buf : (length buf < 16)%nat -> insufficient (de_msg de_bytes buf).
Proof.
  intros Hl. unfold de_msg, de_message, de_tuple_cons, de_tuple_nil, de_u16, deserialize_len.
  unfold insufficient. do 3 step_uint. fold (@insufficient (message header (list N))).
  apply insufficient_bind, insufficient_take, insufficient_bind, header_short.
  rewrite firstn_length, !skipn_length. change (lf_size LF32) with 4%nat. lia.
Qed.

Lemma header_of_bytes bs : length bs = 8%nat -> bytes_ok bs ->
  exists h, header_ok h /\ canonical_header h /\ bs = header_form h.
Proof.
  intros Hl Hb. do 8 (destruct bs as [|? bs]; [discriminate Hl|]). destruct bs; [|discriminate Hl].
  unfold bytes_ok in Hb.
  repeat match goal with H : Forall _ (_ :: _) |- _ => inversion H; clear H; subst end.
  exists (mkHeader (n * 256 + n0) (n1 * 256 + n2) n3 n4 n5 (rc_from_u8 n6)).
  unfold header_ok, canonical_header, header_form; cbn [h_client h_session h_protocol h_interface h_type h_code].
  destruct (rc_table n6) as (E & Hc & _); [assumption|].
  assert (valid_code (rc_from_u8 n6)) by (destruct (rc_from_u8 n6); cbn [canonical_code valid_code] in *; lia).
  change (2 ^ 16) with 65536. change (2 ^ 8) with 256.
  split; [repeat split; (assumption || lia)|]. split; [exact Hc|].
  rewrite E. rewrite !be_S. change (be 0 _) with (@nil N). change (256 ^ N.of_nat 1) with 256. change (256 ^ N.of_nat 0) with 1.
  cbn [app]. repeat (apply (f_equal2 cons); [lia|]). reflexivity.
Qed.

Lemma take_be k bs : length bs = k -> bytes_ok bs -> exists v, v < 256 ^ N.of_nat k /\ bs = be k v.
Proof.
  intros Hk Hb. exists (be_value bs). subst k. split.
  - assert (H := be_value_lt bs Hb). exact H.
  - symmetry. apply be_be_value. exact Hb.
Qed.

Lemma split_at {A} (l : list A) k : (k <= length l)%nat -> exists a b, l = a ++ b /\ length a = k /\ length b = (length l - k)%nat.
Proof.
  intros H. exists (firstn k l), (skipn k l). rewrite firstn_skipn, firstn_length, skipn_length. repeat split. lia.
Qed.

(** What the first 16 bytes of a message say. *)
Lemma parse_header buf : bytes_ok buf -> 16 <= len buf ->
  exists service method length h tail, service < 2 ^ 16 /\ method < 2 ^ 16 /\ length < 2 ^ 32 /\
    header_ok h /\ canonical_header h /\ bytes_ok tail /\
    buf = be 2 service ++ be 2 method ++ be 4 length ++ header_form h ++ tail.
Proof.
  intros Hb Hl. unfold len in Hl.
  destruct (split_at buf 2 ltac:(lia)) as (a & r1 & -> & Ha & Hr1). apply bytes_ok_app in Hb as [Ba Br1].
  destruct (split_at r1 2 ltac:(rewrite app_length in *; lia)) as (b & r2 & -> & Hb' & Hr2). apply bytes_ok_app in Br1 as [Bb Br2].
  rewrite !app_length in *.
  destruct (split_at r2 4 ltac:(lia)) as (c & r3 & -> & Hc & Hr3). apply bytes_ok_app in Br2 as [Bc Br3].
  rewrite !app_length in *.
  destruct (split_at r3 8 ltac:(lia)) as (d & tail & -> & Hd & Hr4). apply bytes_ok_app in Br3 as [Bd Bt].
  destruct (take_be 2 a Ha Ba) as (s & Hs & ->). destruct (take_be 2 b Hb' Bb) as (m & Hm & ->).
  destruct (take_be 4 c Hc Bc) as (L & HL & ->). destruct (header_of_bytes d Hd Bd) as (h & Hh & Hcan & ->).
  exists s, m, L, h, tail. repeat split; try assumption; apply Hh.
Qed.

Lemma decode_form service method L h tail :
  service < 2 ^ 16 -> method < 2 ^ 16 -> L < 2 ^ 32 -> header_ok h -> canonical_header h -> bytes_ok tail ->
  (8 <= L ->
   de_msg de_bytes (be 2 service ++ be 2 method ++ be 4 L ++ header_form h ++ tail) =
   DOk (mkMessage service method h (firstn (N.to_nat (L - 8)) tail)) (skipn (N.to_nat (L - 8)) tail)) /\
  (L < 8 -> insufficient (de_msg de_bytes (be 2 service ++ be 2 method ++ be 4 L ++ header_form h ++ tail))).
Proof.
  intros Hs Hm HL Hh Hc Ht. unfold de_msg, de_message. rewrite de_ids by assumption. cbn [dbind].
  unfold deserialize_len. change (lf_size LF32) with 4%nat.
  rewrite de_uint_be by exact HL. cbn [dbind].
  assert (L8 : length (header_form h) = 8%nat) by (assert (X := header_form_len h); unfold len in X; lia).
  split.
  - intros H8. unfold with_take.
    assert (E1 : firstn (N.to_nat (N.min L (len (header_form h ++ tail)))) (header_form h ++ tail) = header_form h ++ firstn (N.to_nat (L - 8)) tail).
    { rewrite firstn_app, L8. rewrite (firstn_all2 (header_form h)) by (rewrite len_app, header_form_len; lia). f_equal.
      rewrite len_app, header_form_len.
      destruct (N.leb_spec (L - 8) (len tail)) as [Hle|Hgt].
      - f_equal. lia.
      - rewrite !firstn_all2; [reflexivity|unfold len in *; lia|unfold len in *; lia]. }
    assert (E2 : skipn (N.to_nat (N.min L (len (header_form h ++ tail)))) (header_form h ++ tail) = skipn (N.to_nat (L - 8)) tail).
    { rewrite skipn_app, L8. rewrite (skipn_all2 (header_form h)) by (rewrite len_app, header_form_len; lia). cbn [app].
      rewrite len_app, header_form_len.
      destruct (N.leb_spec (L - 8) (len tail)) as [Hle|Hgt].
      - f_equal. lia.
      - rewrite !skipn_all2; [reflexivity|unfold len in *; lia|unfold len in *; lia]. }
    rewrite E1, E2. unfold de_tuple_cons. rewrite header_reads by assumption. reflexivity.
  - intros H8. apply insufficient_bind, insufficient_take, insufficient_bind, header_short.
    rewrite firstn_length. lia.
Qed.

(** * Sequences of messages *)

Lemma de_vec_reads_then {A} (d : Deserialize A) (l : list (list N * A)) tail : sane d ->
  Forall (fun p => reads d (fst p) (snd p) /\ fst p <> []) l ->
  de_vec d (concat (map fst l) ++ tail) = dmap (app (map snd l)) (de_vec d tail).
Proof.
  intros Hd H. induction H as [|[bs v] l [Hv Hne] Hl IH].
  - cbn [map concat app]. destruct (de_vec d tail); reflexivity.
  - cbn [map concat fst snd] in *. rewrite <- app_assoc.
    rewrite (de_vec_cons d _ v (concat (map fst l) ++ tail)); [|exact Hd| |apply Hv|].
    + rewrite IH. destruct (de_vec d tail); reflexivity.
    + destruct bs; [congruence|discriminate].
    + rewrite (app_length bs). destruct bs; [congruence|cbn [length]; lia].
Qed.

Lemma de_vec_err {A} (d : Deserialize A) buf e rest : buf <> [] -> d buf = DErr e rest -> de_vec d buf = DErr e rest.
Proof. intros Hne E. unfold de_vec. destruct buf; [congruence|]. cbn [vec_loop]. rewrite E. reflexivity. Qed.

Lemma sendable_reads m : sendable m -> reads (de_msg de_bytes) (bytes_message_form m) m.
Proof.
  intros ((Hs & Hm & Hh) & Hc & Hb & Hl). unfold bytes_message_form, message_form.
  rewrite <- (header_form_len (m_header m)).
  apply (message_reads de_header de_bytes); try assumption.
  - apply header_reads; assumption.
  - reflexivity.
Qed.

Lemma form_len m : len (bytes_message_form m) = 16 + len (m_body m).
Proof. unfold bytes_message_form, message_form. rewrite !len_app, !be_len, header_form_len. cbn. lia. Qed.

Lemma messages_read ms tail : Forall sendable ms ->
  de_vec (de_msg de_bytes) (concat (map bytes_message_form ms) ++ tail)
  = dmap (app ms) (de_vec (de_msg de_bytes) tail).
Proof.
  intros H. assert (E := de_vec_reads_then (de_msg de_bytes) (map (fun m => (bytes_message_form m, m)) ms) tail de_msg_sane).
  rewrite !map_map in E. cbn [fst snd] in E. rewrite map_id in E. apply E.
  rewrite Forall_map. eapply Forall_impl; [|exact H]. intros m Hm. cbn [fst snd]. split; [apply sendable_reads; exact Hm|].
  intros E'. assert (X := form_len m). rewrite E' in X. change (len (@nil N)) with 0 in X. lia.
Qed.
