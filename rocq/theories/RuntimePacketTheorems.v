(** What a received packet decodes to. *)
From Coq Require Import List NArith ZArith Bool PeanoNat Lia ZifyBool ZifyNat ZifyN.
From Verif Require Import BytesModel UniverseModel WireSpec BytesProofs UniverseProofs
  PrimitivesModel PrimitivesSpec PrimitivesProofs PrimitivesTheorems MessageModel MessageSpec MessageProofs MessageTheorems
  SomeipModel SomeipSpec SomeipTheorems RuntimeModel RuntimeSpec.
From Verif Require UdpModel.
Import ListNotations.
Open Scope N_scope.
Ltac Zify.zify_post_hook ::= Z.div_mod_to_equations.
Arguments N.add : simpl never. Arguments N.mul : simpl never. Arguments N.pow : simpl never.
Arguments N.of_nat : simpl never. Arguments N.sub : simpl never.
Arguments N.div : simpl never. Arguments N.modulo : simpl never.

Lemma form_claims m : s_form m = claiming (8 + len (s_payload m)) m.
Proof. reflexivity. Qed.
Lemma claiming_len L m : len (claiming L m) = 16 + len (s_payload m).
Proof. unfold claiming. rewrite !len_app, !be_len. change (len [s_protocol m; s_interface m; st_as_u8 (s_mtype m); sc_as_u8 (s_rcode m)]) with 4. lia. Qed.

Lemma s_inner_reads m : ordinary m ->
  s_inner de_bytes (be 2 (s_client m) ++ be 2 (s_session m) ++ [s_protocol m; s_interface m; st_as_u8 (s_mtype m); sc_as_u8 (s_rcode m)] ++ s_payload m)
  = DOk (s_request m, (s_protocol m, (s_interface m, (s_mtype m, (s_rcode m, (s_payload m, tt)))))) [].
Proof.
  intros ((O1 & O2 & O3 & O4 & O5 & O6 & O7 & O8) & Hp & Hl & Ct & Cc).
  change (2^16) with 65536 in *. change (2^8) with 256 in *. change (2^32) with 4294967296 in *.
  assert (Ht : st_as_u8 (s_mtype m) < 256). { destruct (s_mtype m); cbn; lia. }
  assert (Hc : sc_as_u8 (s_rcode m) < 256). { destruct (s_rcode m); cbn; lia. }
  assert (Hrq : s_request m < 4294967296). { unfold s_request. rewrite pack32 by exact O4. lia. }
  unfold s_inner. unfold de_tuple_cons at 1. rewrite app_assoc, <- be4_split by exact O4.
  replace (s_client m * 65536 + s_session m) with (s_request m) by (unfold s_request; rewrite pack32 by exact O4; reflexivity).
  rewrite de_uint_be by exact Hrq. cbn [dbind app].
  unfold de_tuple_cons, de_tuple_nil, de_s_type, de_s_code.
  rewrite de_u8_byte by exact O5. cbn [dbind]. rewrite de_u8_byte by exact O6. cbn [dbind].
  rewrite de1_ok by exact Ht. cbn [dmap dbind]. rewrite de1_ok by exact Hc. cbn [dmap dbind de_bytes].
  rewrite <- Ct, <- Cc. reflexivity.
Qed.

(** A message whose length field claims too much is read with what is there. *)
Lemma cut_read m L : ordinary m -> 8 + len (s_payload m) <= L -> L < 2 ^ 32 ->
  de_smessage de_bytes (claiming L m) = DOk m [].
Proof.
  intros O HL HL2. assert (I := s_inner_reads m O).
  destruct O as ((O1 & O2 & O3 & O4 & O5 & O6 & O7 & O8) & Hp & Hl & Ct & Cc).
  change (2^16) with 65536 in *. change (2^8) with 256 in *. change (2^32) with 4294967296 in *.
  assert (Hid : s_id m < 4294967296 /\ as_u16 (N.shiftr (s_id m) 16) = s_service m /\ as_u16 (N.land (s_id m) 0xFFFF) = s_method m).
  { unfold s_id. rewrite pack32 by exact O2. rewrite unpack32_hi, unpack32_lo by (change (2^32) with 4294967296; lia). repeat split; lia. }
  destruct Hid as (Hid & Hi1 & Hi2).
  assert (Hrq : s_request m < 4294967296 /\ as_u16 (N.shiftr (s_request m) 16) = s_client m /\ as_u16 (N.land (s_request m) 0xFFFF) = s_session m).
  { unfold s_request. rewrite pack32 by exact O4. rewrite unpack32_hi, unpack32_lo by (change (2^32) with 4294967296; lia). repeat split; lia. }
  destruct Hrq as (Hrq & Hr1 & Hr2).
  unfold de_smessage, claiming. rewrite app_assoc.
  rewrite <- be4_split by exact O2.
  replace (s_service m * 65536 + s_method m) with (s_id m) by (unfold s_id; rewrite pack32 by exact O2; reflexivity).
  rewrite de_uint_be by exact Hid. cbn [dbind].
  fold (@s_inner (list N) de_bytes). unfold deserialize_len. change (lf_size LF32) with 4%nat.
  rewrite de_uint_be by exact HL2. cbn [dbind].
  set (inner := be 2 (s_client m) ++ _) in *.
  assert (Li : len inner = 8 + len (s_payload m)).
  { unfold inner. rewrite !len_app, !be_len. change (len [s_protocol m; s_interface m; st_as_u8 (s_mtype m); sc_as_u8 (s_rcode m)]) with 4. lia. }
  unfold with_take. rewrite N.min_r by lia. rewrite firstn_all2, skipn_all2 by (unfold len; lia).
  rewrite I. cbn [app dbind]. rewrite built, Hi1, Hi2, Hr1, Hr2. destruct m. reflexivity.
Qed.
Lemma form_read m rest : ordinary m -> de_smessage de_bytes (s_form m ++ rest) = DOk m rest.
Proof.
  intros (O & Hp & Hl & Ct & Cc). apply (s_round_trip m rest (16 + len (s_payload m))); try assumption. lia.
Qed.

Lemma insufficient_err {T} (r : dres T) : insufficient r -> exists e rest, r = DErr e rest.
Proof. intros H. unfold insufficient in H. destruct H as (? & ? & ? & -> & _). eauto. Qed.

(** Any bytes are one of four: nothing, too few, a length below 8, or a message and a rest. *)
Lemma split_packet bs : bytes_ok bs -> bs <> [] ->
  (exists e rest, de_smessage de_bytes bs = DErr e rest) \/
  (exists m rest, ordinary m /\ bytes_ok rest /\ bs = s_form m ++ rest) \/
  (exists m L, ordinary m /\ 8 + len (s_payload m) < L < 2 ^ 32 /\ bs = claiming L m).
Proof.
  intros Hb Hne. assert (A := decoders_agree de_bytes bs Hb).
  assert (F : insufficient (de_msg de_bytes bs) -> exists e rest, de_smessage de_bytes bs = DErr e rest).
  { intros I. apply insufficient_err in I. destruct I as (e & rest & E). rewrite E in A. destruct (de_smessage de_bytes bs); try destruct A. eauto. }
  destruct (N.ltb_spec (len bs) 16) as [Hl|Hl].
  { left. apply F. apply message_short. unfold len in Hl. lia. }
  destruct (parse_header bs Hb Hl) as (s & me & L & h & tail & Hs & Hm & HL & Hh & Hc & Ht & ->).
  destruct (decode_form s me L h tail Hs Hm HL Hh Hc Ht) as [D1 D2].
  destruct (N.ltb_spec L 8) as [H8|H8]; [left; apply F, D2; exact H8|]. right.
  destruct Hh as (H1 & H2 & H3 & H4 & H5 & H6).
  assert (Hcode : rc_as_u8 (h_code h) < 256) by (apply rc_small; exact H6).
  assert (T := types_agree (h_type h) ltac:(exact H5)). destruct T as [_ T].
  assert (C := codes_agree (rc_as_u8 (h_code h)) Hcode). destruct C as [_ C].
  set (m := fun body : list N => mkS s me (h_client h) (h_session h) (h_protocol h) (h_interface h) (st_from_u8 (h_type h))
              (sc_from_u8 (rc_as_u8 (h_code h))) body).
  assert (O : forall body, bytes_ok body -> 8 + len body < 2 ^ 32 -> ordinary (m body)).
  { intros body Bb Lb. unfold ordinary, m, smessage_ok. cbn [s_service s_method s_client s_session s_protocol s_interface s_mtype s_rcode s_payload].
    rewrite T, C. repeat split; try assumption.
    - destruct (st_from_u8 (h_type h)); try exact I. cbn in T. subst. exact H5.
    - destruct (sc_from_u8 (rc_as_u8 (h_code h))); try exact I; cbn in C; subst; exact Hcode. }
  assert (Cl : forall L' body, claiming L' (m body) = be 2 s ++ be 2 me ++ be 4 L' ++ header_form h ++ body).
  { intros L' body. unfold claiming, m, header_form. cbn [s_service s_method s_client s_session s_protocol s_interface s_mtype s_rcode s_payload].
    rewrite T, C, <- !app_assoc. reflexivity. }
  destruct (N.leb_spec (L - 8) (len tail)) as [Hle|Hgt].
  - left. exists (m (firstn (N.to_nat (L - 8)) tail)), (skipn (N.to_nat (L - 8)) tail).
    assert (Lf : len (firstn (N.to_nat (L - 8)) tail) = L - 8) by (unfold len in *; rewrite firstn_length; lia).
    split; [apply O; [apply bytes_ok_firstn; exact Ht|lia]|].
    split; [rewrite <- (firstn_skipn (N.to_nat (L - 8)) tail) in Ht; apply bytes_ok_app in Ht; apply Ht|].
    rewrite form_claims, Cl. cbn [s_payload m]. rewrite Lf. replace (8 + (L - 8)) with L by lia.
    rewrite <- !app_assoc, firstn_skipn. reflexivity.
  - right. exists (m tail), L. split; [apply O; [exact Ht|lia]|]. split; [cbn [s_payload m]; lia|]. symmetry. apply Cl.
Qed.

Lemma smessage_sane : sane (de_smessage de_bytes).
Proof.
  intros buf. unfold de_smessage. apply dbind_sane; [apply de_uint_sane|]. intros id r.
  apply dbind_sane.
  - apply deserialize_len_sane.
    apply de_tuple_cons_sane; [apply de_uint_sane|]. apply de_tuple_cons_sane; [apply de_u8_sane|]. apply de_tuple_cons_sane; [apply de_u8_sane|].
    apply de_tuple_cons_sane; [apply dmap_sane, de_uint_sane|]. apply de_tuple_cons_sane; [apply dmap_sane, de_uint_sane|].
    apply de_tuple_cons_sane; [apply de_bytes_sane|]. apply de_nil_sane.
  - intros (a & b & c & d & e & f & g) r'. exists []. reflexivity.
Qed.

Lemma decode_nil : decode [] = Some [].
Proof. reflexivity. Qed.
Lemma decode_form_more m bs : ordinary m -> decode (s_form m ++ bs) = option_map (cons m) (decode bs).
Proof.
  intros O. assert (L := claiming_len (8 + len (s_payload m)) m). rewrite <- form_claims in L.
  unfold decode. rewrite (de_vec_cons _ (s_form m ++ bs) m bs); [|apply smessage_sane| |apply form_read; exact O|].
  - unfold msg. destruct (de_vec (de_smessage de_bytes) bs); reflexivity.
  - intros E. apply app_eq_nil in E. destruct E as [E _]. rewrite E in L. unfold len in L. cbn [length] in L. lia.
  - rewrite app_length. unfold len in L. lia.
Qed.
Lemma decode_cut m L : ordinary m -> 8 + len (s_payload m) <= L < 2 ^ 32 -> decode (claiming L m) = Some [m].
Proof.
  intros O [H1 H2]. assert (Ln := claiming_len L m).
  unfold decode. rewrite (de_vec_cons _ (claiming L m) m []); [|apply smessage_sane| |apply cut_read; assumption|].
  - reflexivity.
  - intros E. rewrite E in Ln. unfold len in Ln. cbn [length] in Ln. lia.
  - cbn [length]. unfold len in Ln. lia.
Qed.
Lemma decode_bad bs e rest : bs <> [] -> de_smessage de_bytes bs = DErr e rest -> decode bs = None.
Proof. intros Hne E. unfold decode. rewrite (de_vec_err _ _ _ _ Hne E). reflexivity. Qed.

Lemma packet_read bs ms : bytes_ok bs -> decode bs = Some ms <-> packet bs ms.
Proof.
  intros Hb. split.
  - remember (length bs) as n eqn:En. revert bs ms Hb En. induction n as [n IH] using lt_wf_ind. intros bs ms Hb En D. subst n.
    destruct bs as [|b bs0]; [injection D as <-; constructor|]. remember (b :: bs0) as bs eqn:Eb.
    assert (Hne : bs <> []) by congruence. clear Eb b bs0.
    destruct (split_packet bs Hb Hne) as [(e & rest & E)|[(m & rest & O & Br & ->)|(m & L & O & HL & ->)]].
    + rewrite (decode_bad _ _ _ Hne E) in D. discriminate.
    + rewrite decode_form_more in D by exact O. destruct (decode rest) as [ms'|] eqn:R; [|discriminate]. injection D as <-.
      constructor; [exact O|]. apply (IH (length rest)); [|exact Br|reflexivity|exact R].
      assert (L := claiming_len (8 + len (s_payload m)) m). rewrite <- form_claims in L. rewrite app_length. unfold len in L. lia.
    + rewrite decode_cut in D by (try exact O; lia). injection D as <-. constructor; assumption.
  - induction 1 as [|m bs ms O P IH|m L O HL].
    + reflexivity.
    + rewrite decode_form_more by exact O. apply bytes_ok_app in Hb as [_ Hb]. rewrite IH by exact Hb. reflexivity.
    + apply decode_cut; [exact O|lia].
Qed.
Lemma packet_all ms : Forall ordinary ms -> decode (concat (map s_form ms)) = Some ms.
Proof. induction 1 as [|m ms O P IH]; [reflexivity|]. cbn [map concat]. rewrite decode_form_more, IH by exact O. reflexivity. Qed.
(** One bad message spoils the packet. *)
Lemma short_bad tail : bytes_ok tail -> len tail < 16 \/ (exists s me L rest, L < 8 /\ tail = be 2 s ++ be 2 me ++ be 4 L ++ rest) ->
  exists e rest, de_smessage de_bytes tail = DErr e rest.
Proof.
  intros Hb H. assert (A := decoders_agree de_bytes tail Hb).
  assert (I : insufficient (de_msg de_bytes tail)).
  { destruct H as [H|(s & me & L & rest & HL & E)]; [apply message_short; unfold len in H; lia|].
    destruct (N.ltb_spec (len tail) 16) as [Hl|Hl]; [apply message_short; unfold len in Hl; lia|].
    destruct (parse_header tail Hb Hl) as (s' & me' & L' & h & tl & Hs & Hm & HL' & Hh & Hc & Ht & E').
    destruct (decode_form s' me' L' h tl Hs Hm HL' Hh Hc Ht) as [_ D]. rewrite E'. apply D.
    assert (X : be 4 L' = be 4 L).
    { rewrite E in E'. 
      assert (Q : forall k a b x y, be k a ++ x = be k b ++ y -> be k a = be k b /\ x = y).
      { intros k a b x y Q. assert (P : firstn k (be k a ++ x) = firstn k (be k b ++ y)) by (rewrite Q; reflexivity).
        assert (P' : skipn k (be k a ++ x) = skipn k (be k b ++ y)) by (rewrite Q; reflexivity).
        rewrite !firstn_app, !be_length, !Nat.sub_diag, !firstn_O, !app_nil_r, !firstn_all2 in P by (rewrite be_length; lia).
        rewrite !skipn_app, !be_length, !Nat.sub_diag, !skipn_O, !skipn_all2 in P' by (rewrite be_length; lia). auto. }
      apply Q in E'. destruct E' as [_ E']. apply Q in E'. destruct E' as [_ E']. apply Q in E'. destruct E' as [E' _]. congruence. }
    apply (f_equal (fun b => de_uint 4 (b ++ []))) in X. rewrite !de_uint_be in X by (change (256 ^ N.of_nat 4) with 4294967296; lia). congruence. }
  apply insufficient_err in I. destruct I as (e & rest & E). rewrite E in A. destruct (de_smessage de_bytes tail); try destruct A. eauto.
Qed.
Lemma packet_spoiled ms tail : Forall ordinary ms -> bytes_ok tail -> tail <> [] ->
  len tail < 16 \/ (exists s me L rest, L < 8 /\ tail = be 2 s ++ be 2 me ++ be 4 L ++ rest) ->
  decode (concat (map s_form ms) ++ tail) = None.
Proof.
  intros O Hb Hne H. destruct (short_bad tail Hb H) as (e & rest & E).
  induction O as [|m ms O P IH]; [exact (decode_bad _ _ _ Hne E)|].
  cbn [map concat]. rewrite <- app_assoc, decode_form_more, IH by exact O. reflexivity.
Qed.

(** What is sent. *)
Lemma encode_form m : ordinary m -> encode m = s_form m.
Proof.
  intros (O & Hp & Hl & Ct & Cc). unfold encode.
  destruct (s_round_trip m [] (16 + len (s_payload m)) O Hp Hl ltac:(lia) Ct Cc) as (_ & _ & -> & _). reflexivity.
Qed.
Lemma encode_too_long m : s_method m < 2 ^ 16 -> 2 ^ 32 <= 8 + len (s_payload m) -> encode m = be 2 (s_service m) ++ be 2 (s_method m).
Proof. intros Hm Hl. unfold encode. rewrite s_too_long by (try assumption; lia). reflexivity. Qed.
(** What the UDP socket does with it. *)
Lemma udp_limit m os : ordinary m ->
  UdpModel.udp_send (encode m) os = if len (s_payload m) <=? 1384 then (os, Some (s_form m)) else (false, None).
Proof.
  intros O. rewrite encode_form by exact O. unfold UdpModel.udp_send.
  assert (L : len (s_form m) = 16 + len (s_payload m)) by (rewrite form_claims; apply claiming_len). unfold len in L.
  destruct (Nat.ltb_spec 1400 (length (s_form m))) as [K|K]; destruct (N.leb_spec (len (s_payload m)) 1384) as [J|J]; try reflexivity; exfalso; unfold len in J; lia.
Qed.
