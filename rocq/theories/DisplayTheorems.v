(** Proofs about printed forms. *)
From Coq Require Import List NArith Bool Ascii String PeanoNat Lia.
From Verif Require Import BytesModel PrimitivesModel PrimitivesSpec MessageModel MessageSpec SomeipModel SomeipSpec
  SomeipTheorems RuntimeModel DisplayModel DisplaySpec.
Import ListNotations.
Open Scope N_scope.

Lemma digit_read d : d < 16 -> digit_value (digit_char d) = Some d.
Proof.
  intros H. assert (A : forallb (fun d => match digit_value (digit_char d) with Some e => e =? d | None => false end)
    (map N.of_nat (seq 0 16)) = true) by (vm_compute; reflexivity).
  rewrite forallb_forall in A. specialize (A d).
  destruct (digit_value (digit_char d)).
  - f_equal. apply N.eqb_eq. apply A. apply in_map_iff. exists (N.to_nat d). split; [lia|]. apply in_seq. lia.
  - assert (false = true); [|discriminate]. apply A. apply in_map_iff. exists (N.to_nat d). split; [lia|]. apply in_seq. lia.
Qed.

Lemma loop_denotes base fuel : 2 <= base <= 16 -> forall x curr v,
  x < base ^ N.of_nat (S fuel) -> denotes base curr v ->
  denotes base (digits_loop fuel base x curr) (x * base ^ N.of_nat (String.length curr) + v).
Proof.
  intros HB. induction fuel as [|fuel IH]; intros x curr v Hx D.
  - cbn [digits_loop]. change (N.of_nat 1) with 1 in Hx. rewrite N.pow_1_r in Hx. rewrite N.mod_small by exact Hx.
    constructor; [apply digit_read; lia|exact Hx|exact D].
  - cbn [digits_loop].
    assert (M : x mod base < base) by (apply N.mod_lt; lia).
    assert (DM := N.div_mod x base ltac:(lia)).
    assert (D' : denotes base (String (digit_char (x mod base)) curr) (x mod base * base ^ N.of_nat (String.length curr) + v))
      by (constructor; [apply digit_read; lia|exact M|exact D]).
    destruct (x / base =? 0) eqn:E.
    + apply N.eqb_eq in E. replace x with (x mod base) at 2 by (rewrite E in DM; lia). exact D'.
    + eapply (IH (x / base)) in D'.
      * replace (x * base ^ N.of_nat (String.length curr) + v)
          with (x / base * base ^ N.of_nat (String.length (String (digit_char (x mod base)) curr))
                + (x mod base * base ^ N.of_nat (String.length curr) + v)); [exact D'|].
        cbn [String.length]. rewrite Nat2N.inj_succ, N.pow_succ_r'. nia.
      * apply N.div_lt_upper_bound; [lia|]. rewrite Nat2N.inj_succ, N.pow_succ_r' in Hx. exact Hx.
Qed.

Lemma loop_length base fuel : 2 <= base -> forall w x curr,
  x < base ^ N.of_nat (S w) -> (String.length (digits_loop fuel base x curr) <= S w + String.length curr)%nat.
Proof.
  intros HB. induction fuel as [|fuel IH]; intros w x curr Hx.
  - cbn. lia.
  - cbn [digits_loop]. destruct (x / base =? 0) eqn:E; [cbn [String.length]; lia|].
    apply N.eqb_neq in E. destruct w as [|w].
    + exfalso. apply E. apply N.div_small. change (N.of_nat 1) with 1 in Hx. rewrite N.pow_1_r in Hx. exact Hx.
    + eapply Nat.le_trans; [apply (IH w)|cbn [String.length]; lia].
      apply N.div_lt_upper_bound; [lia|]. rewrite Nat2N.inj_succ, N.pow_succ_r' in Hx. exact Hx.
Qed.

Lemma size_pow x : x < 2 ^ N.of_nat (N.size_nat x).
Proof.
  destruct x as [|p]; [cbn; lia|].
  cbn [N.size_nat]. induction p as [p IH|p IH|]; cbn [Pos.size_nat]; try (rewrite Nat2N.inj_succ, N.pow_succ_r').
  - change (N.pos p~1) with (2 * N.pos p + 1). lia.
  - change (N.pos p~0) with (2 * N.pos p). lia.
  - cbn. lia.
Qed.

Lemma digits_denote base x : 2 <= base <= 16 -> denotes base (digits base x) x.
Proof.
  intros HB. unfold digits.
  replace x with (x * base ^ N.of_nat (String.length EmptyString) + 0) at 3 by (cbn [String.length]; rewrite N.pow_0_r; lia).
  apply loop_denotes; [exact HB| |constructor].
  eapply N.lt_le_trans; [apply size_pow|].
  transitivity (base ^ N.of_nat (N.size_nat x)); [apply N.pow_le_mono_l; lia|apply N.pow_le_mono_r; lia].
Qed.

Lemma zeros_length n : String.length (zeros n) = n.
Proof. induction n; cbn; congruence. Qed.

Lemma append_length s t : String.length (s ++ t) = (String.length s + String.length t)%nat.
Proof. induction s as [|c s IH]; cbn; [reflexivity|]. f_equal. exact IH. Qed.

Lemma zeros_denote base n s v : 1 <= base -> denotes base s v -> denotes base (zeros n ++ s) v.
Proof.
  intros HB D. induction n as [|n IH]; [exact D|]. cbn [zeros append].
  replace v with (0 * base ^ N.of_nat (String.length (zeros n ++ s)) + v) by lia.
  constructor; [reflexivity|lia|exact IH].
Qed.

Lemma fmt_numeral w v : v < 16 ^ N.of_nat (S w) -> numeral 16 (S w) (pad_zero (S w) (digits 16 v)) v.
Proof.
  intros H. split.
  - unfold pad_zero. rewrite append_length, zeros_length.
    assert (L := loop_length 16 (N.size_nat v) ltac:(lia) w v EmptyString H). fold (digits 16 v) in L. cbn [String.length] in L. lia.
  - unfold pad_zero. apply zeros_denote; [lia|]. apply digits_denote. lia.
Qed.

Lemma u16_printed v : v < 2 ^ 16 -> numeral 16 4 (show_u16 v) v.
Proof. intros H. apply (fmt_numeral 3). exact H. Qed.

Lemma u8_printed v : v < 2 ^ 8 -> numeral 16 2 (show_u8 v) v.
Proof. intros H. apply (fmt_numeral 1). exact H. Qed.

(** A numeral denotes one number. *)
Lemma denotes_unique base s v v' : denotes base s v -> denotes base s v' -> v = v'.
Proof.
  intros D. revert v'. induction D as [|c s d v E L D IH]; intros v' D'; inversion D' as [|c' s' d' v'' E' L' D'']; subst; [reflexivity|].
  rewrite E in E'. injection E' as <-. rewrite (IH _ D''). reflexivity.
Qed.

Lemma show_u16_inj a b : a < 2 ^ 16 -> b < 2 ^ 16 -> show_u16 a = show_u16 b -> a = b.
Proof.
  intros A B E. eapply denotes_unique; [apply (u16_printed a A)|]. rewrite E. apply (u16_printed b B).
Qed.
Lemma show_u8_inj a b : a < 2 ^ 8 -> b < 2 ^ 8 -> show_u8 a = show_u8 b -> a = b.
Proof.
  intros A B E. eapply denotes_unique; [apply (u8_printed a A)|]. rewrite E. apply (u8_printed b B).
Qed.
Lemma fmt_dec_inj a b : fmt_dec a = fmt_dec b -> a = b.
Proof.
  intros E. eapply denotes_unique; [apply (digits_denote 10 a); lia|]. unfold fmt_dec in E. rewrite E. apply digits_denote. lia.
Qed.

(** A decimal number has no leading zero. *)
Lemma loop_first base fuel : 2 <= base <= 16 -> forall x curr, x <> 0 -> x < base ^ N.of_nat (S fuel) ->
  exists d s, digits_loop fuel base x curr = String (digit_char d) s /\ 0 < d < base.
Proof.
  intros HB. induction fuel as [|fuel IH]; intros x curr H0 Hx.
  - cbn [digits_loop]. change (N.of_nat 1) with 1 in Hx. rewrite N.pow_1_r in Hx. rewrite N.mod_small by exact Hx.
    eexists. eexists. split; [reflexivity|lia].
  - cbn [digits_loop]. destruct (x / base =? 0) eqn:E.
    + apply N.eqb_eq in E. assert (DM := N.div_mod x base ltac:(lia)). assert (M := N.mod_lt x base ltac:(lia)).
      eexists. eexists. split; [reflexivity|]. rewrite E in DM. lia.
    + apply N.eqb_neq in E. apply IH; [exact E|].
      apply N.div_lt_upper_bound; [lia|]. rewrite Nat2N.inj_succ, N.pow_succ_r' in Hx. exact Hx.
Qed.

Lemma dec_printed v : denotes 10 (fmt_dec v) v /\
  (v = 0 /\ fmt_dec v = "0"%string \/
   exists c s d, fmt_dec v = String c s /\ digit_value c = Some d /\ d <> 0).
Proof.
  split; [apply digits_denote; lia|]. destruct (N.eq_dec v 0) as [->|H]; [left; split; reflexivity|]. right.
  destruct (loop_first 10 (N.size_nat v) ltac:(lia) v EmptyString H) as (d & s & E & L).
  - eapply N.lt_le_trans; [apply size_pow|].
    transitivity (10 ^ N.of_nat (N.size_nat v)); [apply N.pow_le_mono_l; lia|apply N.pow_le_mono_r; lia].
  - exists (digit_char d), s, d. split; [exact E|]. split; [apply digit_read; lia|lia].
Qed.

Lemma append_inj s s' t t' : String.length s = String.length s' -> (s ++ t)%string = (s' ++ t')%string -> s = s' /\ t = t'.
Proof.
  revert s'. induction s as [|c s IH]; intros [|c' s'] L E; cbn in *; try discriminate; [split; [reflexivity|exact E]|].
  injection E as <- E. injection L as L. destruct (IH _ L E) as [-> ->]. split; reflexivity.
Qed.

Lemma u16_length v : v < 2 ^ 16 -> String.length (show_u16 v) = 4%nat.
Proof. intros H. apply (u16_printed v H). Qed.
Lemma u8_length v : v < 2 ^ 8 -> String.length (show_u8 v) = 2%nat.
Proof. intros H. apply (u8_printed v H). Qed.

Lemma append_assoc s t u : ((s ++ t) ++ u)%string = (s ++ t ++ u)%string.
Proof. induction s as [|c s IH]; cbn; [reflexivity|]. f_equal. exact IH. Qed.

Ltac peel H := let L := fresh "E" in
  apply append_inj in H; [destruct H as [L H]|rewrite ?u16_length, ?u8_length by assumption; reflexivity].
Ltac dot H := cbn [append] in H; injection H as H.

Lemma ids_printed (i : message_id) (r : request_id) :
  (mid_service i < 2 ^ 16 -> mid_method i < 2 ^ 16 ->
   exists a b, show_message_id i = dotted [a; b] /\ numeral 16 4 a (mid_service i) /\ numeral 16 4 b (mid_method i)) /\
  (rid_client r < 2 ^ 16 -> rid_session r < 2 ^ 16 ->
   exists a b, show_request_id r = dotted [a; b] /\ numeral 16 4 a (rid_client r) /\ numeral 16 4 b (rid_session r)).
Proof.
  split; intros A B.
  - exists (show_u16 (mid_service i)), (show_u16 (mid_method i)). split; [reflexivity|]. split; apply u16_printed; assumption.
  - exists (show_u16 (rid_client r)), (show_u16 (rid_session r)). split; [reflexivity|]. split; apply u16_printed; assumption.
Qed.

Lemma valid_code_byte c : valid_code c -> rc_as_u8 c < 2 ^ 8.
Proof. destruct c; cbn; intros; try lia; assumption. Qed.

Lemma header_printed (h : header) : header_ok h ->
  exists a b c d, show_header h = dotted [a; b; c; d] /\ numeral 16 4 a (h_client h) /\ numeral 16 4 b (h_session h) /\
    numeral 16 2 c (h_type h) /\ numeral 16 2 d (rc_as_u8 (h_code h)).
Proof.
  intros (A & B & _ & _ & T & C). apply valid_code_byte in C.
  exists (show_u16 (h_client h)), (show_u16 (h_session h)), (show_u8 (h_type h)), (show_u8 (rc_as_u8 (h_code h))).
  split; [reflexivity|]. repeat split; try (apply u16_printed; assumption); apply u8_printed; assumption.
Qed.

Lemma message_printed {B} (m : message header B) : message_ok m ->
  exists a b c d e f, show_message show_header m = dotted [a; b; c; d; e; f] /\
    numeral 16 4 a (m_service m) /\ numeral 16 4 b (m_method m) /\
    numeral 16 4 c (msg_client m) /\ numeral 16 4 d (msg_session m) /\
    numeral 16 2 e (h_type (m_header m)) /\ numeral 16 2 f (rc_as_u8 (msg_code m)).
Proof.
  intros (A & C & H). destruct (header_printed _ H) as (c & d & e & f & E & N1 & N2 & N3 & N4).
  exists (show_u16 (m_service m)), (show_u16 (m_method m)), c, d, e, f. split; [unfold show_message; rewrite E; reflexivity|].
  repeat split; try (apply u16_printed; assumption); try apply N1; try apply N2; try apply N3; try apply N4.
Qed.

Lemma smessage_bytes {T} (m : smessage T) : smessage_ok m -> st_as_u8 (s_mtype m) < 2 ^ 8 /\ sc_as_u8 (s_rcode m) < 2 ^ 8.
Proof. intros (_ & _ & _ & _ & _ & _ & A & B). split; [destruct (s_mtype m)|destruct (s_rcode m)]; cbn in *; try assumption; lia. Qed.

Lemma smessage_printed {T} (m : smessage T) : smessage_ok m ->
  exists a b c d e f, show_smessage m = dotted ["M"%string; a; b; c; d; e; f] /\
    numeral 16 4 a (s_service m) /\ numeral 16 4 b (s_method m) /\
    numeral 16 4 c (s_client m) /\ numeral 16 4 d (s_session m) /\
    numeral 16 2 e (st_as_u8 (s_mtype m)) /\ numeral 16 2 f (sc_as_u8 (s_rcode m)).
Proof.
  intros O. destruct (smessage_bytes m O) as [OT OC]. destruct O as (A & B & C & D & _ & _ & _ & _).
  exists (show_u16 (s_service m)), (show_u16 (s_method m)), (show_u16 (s_client m)), (show_u16 (s_session m)),
    (show_u8 (st_as_u8 (s_mtype m))), (show_u8 (sc_as_u8 (s_rcode m))).
  split; [reflexivity|]. repeat split; try (apply u16_printed; assumption); apply u8_printed; assumption.
Qed.

Lemma iid_printed (i : iid) : fst i < 2 ^ 16 -> snd i < 2 ^ 8 ->
  exists a b, show_iid i = dotted ["I"%string; a; b] /\ numeral 16 4 a (fst i) /\ numeral 16 2 b (snd i).
Proof.
  intros A B. exists (show_u16 (fst i)), (show_u8 (snd i)). split; [reflexivity|].
  split; [apply u16_printed|apply u8_printed]; assumption.
Qed.

(** What a numeral of known width denotes can be read back, so equal prints are equal fields. *)
Lemma show_header_inj (h h' : header) : header_ok h -> header_ok h' -> show_header h = show_header h' ->
  h_client h = h_client h' /\ h_session h = h_session h' /\ h_type h = h_type h' /\ rc_as_u8 (h_code h) = rc_as_u8 (h_code h').
Proof.
  intros (A & B & _ & _ & T & C) (A' & B' & _ & _ & T' & C') E. apply valid_code_byte in C. apply valid_code_byte in C'.
  unfold show_header in E. change fmt_02x with show_u8 in E.
  peel E. dot E. peel E. dot E. peel E. dot E.
  repeat split; [apply show_u16_inj|apply show_u16_inj|apply show_u8_inj|apply show_u8_inj]; assumption.
Qed.

Lemma messages_told_apart {B C} (m : message header B) (m' : message header C) : message_ok m -> message_ok m' ->
  (show_message show_header m = show_message show_header m' <->
   m_service m = m_service m' /\ m_method m = m_method m' /\ msg_client m = msg_client m' /\ msg_session m = msg_session m' /\
   h_type (m_header m) = h_type (m_header m') /\ rc_as_u8 (msg_code m) = rc_as_u8 (msg_code m')).
Proof.
  intros (A & D & H) (A' & D' & H'). split.
  - intros E. unfold show_message in E. peel E. dot E. peel E. dot E. apply show_header_inj in E; [|assumption|assumption].
    destruct E as (F1 & F2 & F3 & F4). repeat split; try assumption; apply show_u16_inj; assumption.
  - intros (E1 & E2 & E3 & E4 & E5 & E6). unfold show_message, show_header.
    unfold msg_client, msg_session, msg_code in *. rewrite E1, E2, E3, E4, E5, E6. reflexivity.
Qed.

Lemma smessages_told_apart {T U} (m : smessage T) (m' : smessage U) : smessage_ok m -> smessage_ok m' ->
  (show_smessage m = show_smessage m' <->
   s_service m = s_service m' /\ s_method m = s_method m' /\ s_client m = s_client m' /\ s_session m = s_session m' /\
   st_as_u8 (s_mtype m) = st_as_u8 (s_mtype m') /\ sc_as_u8 (s_rcode m) = sc_as_u8 (s_rcode m')).
Proof.
  intros O O'. destruct (smessage_bytes m O) as [OT OC]. destruct (smessage_bytes m' O') as [OT' OC'].
  destruct O as (A & B & C & D & _ & _ & _ & _). destruct O' as (A' & B' & C' & D' & _ & _ & _ & _). split.
  - intros E. unfold show_smessage in E. change fmt_02x with show_u8 in E. change fmt_04x with show_u16 in E. cbn [append] in E. injection E as E.
    peel E. dot E. peel E. dot E. peel E. dot E. peel E. dot E. peel E. dot E.
    repeat split; try (apply show_u16_inj; assumption); apply show_u8_inj; assumption.
  - intros (E1 & E2 & E3 & E4 & E5 & E6). unfold show_smessage. rewrite E1, E2, E3, E4, E5, E6. reflexivity.
Qed.

Lemma iids_told_apart (i j : iid) : fst i < 2 ^ 16 -> snd i < 2 ^ 8 -> fst j < 2 ^ 16 -> snd j < 2 ^ 8 ->
  show_iid i = show_iid j -> i = j.
Proof.
  intros A B A' B' E. destruct i as [a b], j as [a' b']. cbn [fst snd] in *. unfold show_iid in E. cbn [fst snd] in E.
  change fmt_02x with show_u8 in E. change fmt_04x with show_u16 in E. cbn [append] in E. injection E as E. peel E. dot E.
  f_equal; [apply show_u16_inj|apply show_u8_inj]; assumption.
Qed.

Lemma variant_inj name v v' : fmt_variant name v = fmt_variant name v' -> v = v'.
Proof.
  unfold fmt_variant. intros E. apply append_inj in E; [destruct E as [_ E]|reflexivity]. cbn [append] in E. injection E as E.
  apply fmt_dec_inj. revert E. generalize (fmt_dec v) (fmt_dec v'). clear. intros s. induction s as [|c s IH]; intros [|c' s'] E; cbn in E.
  - reflexivity.
  - exfalso. injection E as _ E. destruct s'; discriminate.
  - exfalso. injection E as _ E. destruct s; discriminate.
  - injection E as <- E. f_equal. apply IH. exact E.
Qed.

Lemma types_told_apart (t t' : message_type) : show_message_type t = show_message_type t' -> t = t'.
Proof.
  intros E. destruct t, t'; try reflexivity; try discriminate; f_equal; exact (variant_inj _ _ _ E).
Qed.

Lemma codes_told_apart (c c' : return_code) : show_return_code c = show_return_code c' -> c = c'.
Proof.
  intros E. destruct c, c'; try reflexivity; try discriminate; f_equal; exact (variant_inj _ _ _ E).
Qed.

(** The two crates print the same message the same way. *)
Lemma same_print {T} (s : smessage T) (p : message header T) : smessage_ok s -> message_ok p -> same s p ->
  show_smessage s = ("M." ++ show_message show_header p)%string.
Proof.
  intros O (_ & _ & (_ & _ & _ & _ & HT & _)) (E1 & E2 & E3 & E4 & _ & _ & E7 & E8 & _).
  assert (ET : st_as_u8 (s_mtype s) = h_type (m_header p)).
  { apply type_byte; [exact HT| |exact E7]. destruct O as (_ & _ & _ & _ & _ & _ & O & _). destruct (s_mtype s); try exact I. exact O. }
  assert (EC : sc_as_u8 (s_rcode s) = rc_as_u8 (h_code (m_header p))) by (rewrite code_byte, E8; reflexivity).
  unfold show_smessage, show_message, show_header, show_u16, msg_client, msg_session in *. rewrite E1, E2, E3, E4, ET, EC. reflexivity.
Qed.
