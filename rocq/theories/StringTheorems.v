(** The statements about strings used in PropertiesString.v. *)
From Coq Require Import List NArith ZArith Bool Lia ZifyBool ZifyNat ZifyN.
From Verif Require Import BytesModel UniverseModel WireSpec BytesProofs StringModel StringSpec StringProofs.
Import ListNotations.
Open Scope N_scope.
Ltac Zify.zify_post_hook ::= Z.div_mod_to_equations.
Arguments N.add : simpl never. Arguments N.mul : simpl never. Arguments N.pow : simpl never.
Arguments N.of_nat : simpl never. Arguments N.sub : simpl never.
Arguments N.div : simpl never. Arguments N.modulo : simpl never.

(** ** Completeness of the decoder, whatever follows *)

Lemma de_raw1_complete raw rest : Forall (fun v => v < 256 /\ v <> 0) raw ->
  de_raw (de_uint 1) (raw ++ [0] ++ rest) = DOk raw rest.
Proof.
  intros H. unfold de_raw.
  assert (E := raw_loop_complete (de_uint 1) enc1 (fun v => v < 256) (fun v r _ => de1 v r)
                 (fun v => Nat.lt_0_1) raw (S (length (raw ++ [0] ++ rest))) rest H).
  rewrite concat_enc1 in E. apply E; [lia|]. unfold enc1. lia.
Qed.
Lemma de_raw2_complete raw rest : Forall (fun v => v < 65536 /\ v <> 0) raw ->
  de_raw (de_uint 2) (units_be raw ++ [0; 0] ++ rest) = DOk raw rest.
Proof.
  intros H. unfold de_raw.
  apply (raw_loop_complete (de_uint 2) enc_be (fun v => v < 65536) de2_reads
           (fun v => Nat.lt_0_succ 1) raw _ rest H); [lia|].
  unfold units_be. fold enc_be. change (enc_be 0) with [0; 0]. lia.
Qed.
Lemma de_raw2le_complete raw rest : Forall (fun v => v < 65536 /\ v <> 0) raw ->
  de_raw (fun buf => dmap swap_bytes2 (de_uint 2 buf)) (units_le raw ++ [0; 0] ++ rest) = DOk raw rest.
Proof.
  intros H. unfold de_raw.
  apply (raw_loop_complete _ enc_le (fun v => v < 65536) de2_swap_reads
           (fun v => Nat.lt_0_succ 1) raw _ rest H); [lia|].
  unfold units_le. fold enc_le. change (enc_le 0) with [0; 0]. lia.
Qed.

Lemma de2_mark m a b rest : m = a * 256 + b -> a < 256 -> b < 256 ->
  de_uint 2 (a :: b :: rest) = DOk m rest.
Proof.
  intros -> Ha Hb. rewrite <- (de2_reads (a * 256 + b) rest) by lia. unfold enc_be. cbn [app].
  f_equal. repeat (apply (f_equal2 cons); [lia|]). reflexivity.
Qed.

Lemma read_utf8 host s rest : text s -> de_string host (text_utf8 s ++ rest) = DOk s rest.
Proof.
  intros Ht. assert (Hs := text_scalar _ Ht). unfold text_utf8. rewrite <- !app_assoc. cbn [app].
  unfold de_string. rewrite (de2_mark 0xEFBB) by (reflexivity || lia). cbn [dbind].
  change (0xEFBB =? 0xEFBB) with true. cbv iota. unfold deserialize_utf8. rewrite de1. cbn [dbind].
  change (0xBF =? 0xBF) with true. cbn [negb].
  assert (E := de_raw1_complete (utf8 s) rest (proj2 (utf8_text s Hs) Ht)). cbn [app] in E. rewrite E.
  cbn [dbind]. rewrite (proj2 (from_utf8_iff (utf8 s) s (utf8_bytes s Hs)) (conj Hs eq_refl)). reflexivity.
Qed.

Lemma read_utf16_be host s rest : text s -> de_string host (text_utf16_be s ++ rest) = DOk s rest.
Proof.
  intros Ht. assert (Hs := text_scalar _ Ht). unfold text_utf16_be. rewrite <- !app_assoc. cbn [app].
  unfold de_string. rewrite (de2_mark 0xFEFF) by (reflexivity || lia). cbn [dbind].
  change (0xFEFF =? 0xEFBB) with false. change (0xFEFF =? 0xFEFF) with true. cbv iota.
  unfold deserialize_utf16. cbv zeta iota.
  assert (E := de_raw2_complete (utf16 s) rest (proj2 (utf16_text s Hs) Ht)). cbn [app] in E. rewrite E.
  cbn [dbind]. rewrite from_utf16_complete by exact Hs. reflexivity.
Qed.

Lemma read_utf16_le s rest : text s -> de_string Little (text_utf16_le s ++ rest) = DOk s rest.
Proof.
  intros Ht. assert (Hs := text_scalar _ Ht). unfold text_utf16_le. rewrite <- !app_assoc. cbn [app].
  unfold de_string. rewrite (de2_mark 0xFFFE) by (reflexivity || lia). cbn [dbind].
  change (0xFFFE =? 0xEFBB) with false. change (0xFFFE =? 0xFEFF) with false.
  change (0xFFFE =? 0xFFFE) with true. cbv iota. unfold deserialize_utf16. cbv zeta iota.
  assert (E := de_raw2le_complete (utf16 s) rest (proj2 (utf16_text s Hs) Ht)). cbn [app] in E.
  change (from_be2 Little) with swap_bytes2. rewrite E. cbn [dbind]. rewrite from_utf16_complete by exact Hs. reflexivity.
Qed.

(** ** Writing *)

Lemma writes_ok f bs data room : writes f bs -> len bs <= room ->
  f (mkW data room) = WOk (len bs) (mkW (data ++ bs) (room - len bs)).
Proof.
  intros H Hr. rewrite H. cbn [w_room]. destruct (N.leb_spec (len bs) room); [reflexivity|lia].
Qed.

Lemma serialize_len_form {A} (S : Serialize A) v payload lf :
  size_hint S v = len payload -> writes (serialize S v) payload ->
  (len payload < 256 ^ N.of_nat (lf_size lf) -> forall data room,
     N.of_nat (lf_size lf) + len payload <= room ->
     serialize_len S lf v (mkW data room) =
     WOk (N.of_nat (lf_size lf) + len payload)
         (mkW (data ++ be (lf_size lf) (len payload) ++ payload)
              (room - (N.of_nat (lf_size lf) + len payload)))) /\
  (256 ^ N.of_nat (lf_size lf) <= len payload -> forall b,
     serialize_len S lf v b = WErr (InvalidLength (len payload) (256 ^ N.of_nat (lf_size lf) - 1)) b).
Proof.
  intros Hh Hw.
  assert (H := serialize_len_meets S (fun _ => Some payload) lf v (conj Hh Hw)). cbv beta iota in H.
  unfold length_prefixed in H.
  destruct (N.ltb_spec (len payload) (256 ^ N.of_nat (lf_size lf))) as [Hlt|Hge].
  - split; [|lia]. intros _ data room Hr.
    assert (L : len (be (lf_size lf) (len payload) ++ payload) = N.of_nat (lf_size lf) + len payload)
      by (rewrite len_app, be_len; reflexivity).
    rewrite (writes_ok _ _ data room H) by lia. rewrite L. reflexivity.
  - split; [lia|]. intros _ b. destruct (H b) as [E _]. rewrite E. rewrite <- lf_max_spec.
    replace (lf_max lf + 1 - 1) with (lf_max lf) by lia. reflexivity.
Qed.

Lemma utf8_written s : Forall scalar s ->
  (forall data room, len (text_utf8 s) <= room ->
     serialize_utf8 s None (mkW data room) =
     WOk (len (text_utf8 s)) (mkW (data ++ text_utf8 s) (room - len (text_utf8 s)))) /\
  (forall lf data room, len (text_utf8 s) < 256 ^ N.of_nat (lf_size lf) ->
     N.of_nat (lf_size lf) + len (text_utf8 s) <= room ->
     serialize_utf8 s (Some lf) (mkW data room) =
     WOk (N.of_nat (lf_size lf) + len (text_utf8 s))
         (mkW (data ++ be (lf_size lf) (len (text_utf8 s)) ++ text_utf8 s)
              (room - (N.of_nat (lf_size lf) + len (text_utf8 s))))) /\
  (forall lf b, 256 ^ N.of_nat (lf_size lf) <= len (text_utf8 s) ->
     serialize_utf8 s (Some lf) b =
     WErr (InvalidLength (len (text_utf8 s)) (256 ^ N.of_nat (lf_size lf) - 1)) b).
Proof.
  intros Hs. destruct (ser_utf8_writes s Hs) as [Hh Hw]. split; [|split].
  - intros data room Hr. apply (writes_ok _ _ data room Hw Hr).
  - intros lf data room Hlt Hr. apply (proj1 (serialize_len_form _ _ _ lf Hh Hw) Hlt data room Hr).
  - intros lf b Hge. apply (proj2 (serialize_len_form _ _ _ lf Hh Hw) Hge b).
Qed.

Lemma utf16_written e s : Forall scalar s ->
  let form := match e with Little => text_utf16_le s | Big => text_utf16_be s end in
  (forall data room, len form <= room ->
     serialize_utf16 e s None (mkW data room) = WOk (len form) (mkW (data ++ form) (room - len form))) /\
  (forall lf data room, len form < 256 ^ N.of_nat (lf_size lf) ->
     N.of_nat (lf_size lf) + len form <= room ->
     serialize_utf16 e s (Some lf) (mkW data room) =
     WOk (N.of_nat (lf_size lf) + len form)
         (mkW (data ++ be (lf_size lf) (len form) ++ form)
              (room - (N.of_nat (lf_size lf) + len form)))) /\
  (forall lf b, 256 ^ N.of_nat (lf_size lf) <= len form ->
     serialize_utf16 e s (Some lf) b =
     WErr (InvalidLength (len form) (256 ^ N.of_nat (lf_size lf) - 1)) b).
Proof.
  intros Hs form. change form with (form16 e s). destruct (ser_utf16_writes e s Hs) as [Hh Hw].
  split; [|split].
  - intros data room Hr. apply (writes_ok _ _ data room Hw Hr).
  - intros lf data room Hlt Hr. apply (proj1 (serialize_len_form _ _ _ lf Hh Hw) Hlt data room Hr).
  - intros lf b Hge. apply (proj2 (serialize_len_form _ _ _ lf Hh Hw) Hge b).
Qed.

(** ** What is read back *)

Lemma utf8_app a b : utf8 (a ++ b) = utf8 a ++ utf8 b.
Proof. unfold utf8. rewrite map_app, concat_app. reflexivity. Qed.
Lemma utf16_app a b : utf16 (a ++ b) = utf16 a ++ utf16 b.
Proof. unfold utf16. rewrite map_app, concat_app. reflexivity. Qed.
Lemma units_be_app a b : units_be (a ++ b) = units_be a ++ units_be b.
Proof. unfold units_be. rewrite map_app, concat_app. reflexivity. Qed.
Lemma units_le_app a b : units_le (a ++ b) = units_le a ++ units_le b.
Proof. unfold units_le. rewrite map_app, concat_app. reflexivity. Qed.

Lemma utf8_nul host a b rest : text a ->
  de_string host (text_utf8 (a ++ 0 :: b) ++ rest) = DOk a (utf8 b ++ [0] ++ rest).
Proof.
  intros Ha. rewrite <- (read_utf8 host a (utf8 b ++ [0] ++ rest) Ha). f_equal.
  unfold text_utf8. rewrite utf8_app, utf8_cons. change (utf8_char 0) with [0].
  rewrite <- !app_assoc. reflexivity.
Qed.
Lemma utf16_be_nul host a b rest : text a ->
  de_string host (text_utf16_be (a ++ 0 :: b) ++ rest) = DOk a (units_be (utf16 b) ++ [0; 0] ++ rest).
Proof.
  intros Ha. rewrite <- (read_utf16_be host a (units_be (utf16 b) ++ [0; 0] ++ rest) Ha). f_equal.
  unfold text_utf16_be. rewrite utf16_app, utf16_cons, !units_be_app.
  change (units_be (utf16_char 0)) with [0; 0]. rewrite <- !app_assoc. reflexivity.
Qed.
Lemma utf16_le_nul a b rest : text a ->
  de_string Little (text_utf16_le (a ++ 0 :: b) ++ rest) = DOk a (units_le (utf16 b) ++ [0; 0] ++ rest).
Proof.
  intros Ha. rewrite <- (read_utf16_le a (units_le (utf16 b) ++ [0; 0] ++ rest) Ha). f_equal.
  unfold text_utf16_le. rewrite utf16_app, utf16_cons, !units_le_app.
  change (units_le (utf16_char 0)) with [0; 0]. rewrite <- !app_assoc. reflexivity.
Qed.

(** Behind a length field, and in a Vec. *)
Lemma strings_in_frame host lf s rest : text s ->
  len (text_utf8 s) < 256 ^ N.of_nat (lf_size lf) ->
  deserialize_len (de_string host) lf (be (lf_size lf) (len (text_utf8 s)) ++ text_utf8 s ++ rest) = DOk s rest.
Proof.
  intros Ht Hl. rewrite deserialize_len_exact by exact Hl.
  assert (E := read_utf8 host s [] Ht). rewrite app_nil_r in E. rewrite E. reflexivity.
Qed.

Lemma vec_of_strings ss bss : Forall2 wire_text ss bss ->
  de_vec (de_string Little) (concat bss) = DOk ss [].
Proof.
  intros H.
  assert (E : exists l, map fst l = bss /\ map snd l = ss /\
     Forall (fun p => reads (de_string Little) (fst p) (snd p) /\ fst p <> []) l).
  { induction H as [|s bs ss bss Hw HF IH]; [exists []; repeat split; constructor|].
    destruct IH as (l & <- & <- & Hl). exists ((bs, s) :: l). repeat split.
    constructor; [|exact Hl]. cbn [fst snd]. split; [|destruct Hw; discriminate].
    intros rest. destruct Hw; [apply read_utf8|apply read_utf16_be|apply read_utf16_le]; assumption. }
  destruct E as (l & <- & <- & Hl). apply de_vec_reads; [apply de_string_sane|exact Hl].
Qed.

(** ** Acceptance *)

Lemma accepts_iff buf s rest : bytes_ok buf ->
  (de_string Little buf = DOk s rest <->
   text s /\ (buf = text_utf8 s ++ rest \/ buf = text_utf16_be s ++ rest \/ buf = text_utf16_le s ++ rest)).
Proof. apply (de_string_iff Little). Qed.

Lemma accepts_iff_be_host buf s rest : bytes_ok buf ->
  (de_string Big buf = DOk s rest <->
   text s /\ (buf = text_utf8 s ++ rest \/ buf = text_utf16_be s ++ rest \/
              buf = ([0xFF; 0xFE] ++ units_be (utf16 s) ++ [0; 0]) ++ rest)).
Proof. apply (de_string_iff Big). Qed.

Lemma be_host_misreads : exists s s', text s /\ s <> s' /\
  de_string Big (text_utf16_le s) = DOk s' [].
Proof.
  exists [0x41], [0x4100]. split; [|split].
  - constructor; [split; [left; lia|lia]|constructor].
  - discriminate.
  - vm_compute. reflexivity.
Qed.

Lemma always_returns host buf :
  de_string host buf <> DPanic /\ de_string host buf <> DHang /\
  (forall s rest, de_string host buf = DOk s rest -> exists used, buf = used ++ rest) /\
  (forall e rest, de_string host buf = DErr e rest -> exists used, buf = used ++ rest).
Proof.
  assert (H := de_string_sane host buf). assert (H' := de_string_no_hang host buf).
  destruct (de_string host buf) as [s rest|e rest| |]; try tauto.
  - repeat split; try discriminate. intros s' r E. injection E as <- <-. exact H.
  - repeat split; try discriminate. intros s' r E. injection E as <- <-. exact H.
Qed.

(** Without a terminator: InsufficientData, the buffer is used up (or one byte is left of a
    code unit cut in half). *)
Lemma raw_loop_unterminated : forall bs fuel, (length bs < fuel)%nat -> Forall (fun b => b <> 0) bs ->
  raw_loop (de_uint 1) fuel bs = DErr (InsufficientData 1 0) [].
Proof.
  induction bs as [|b bs IH]; intros fuel Hf H.
  - destruct fuel as [|fuel]; [cbn in Hf; lia|]. reflexivity.
  - destruct fuel as [|fuel]; [lia|]. inversion H; subst. cbn [raw_loop]. rewrite de1. cbn [dbind].
    destruct (N.eqb_spec b 0); [contradiction|]. cbn [length] in Hf. rewrite IH by (assumption || lia). reflexivity.
Qed.

Lemma utf8_unterminated host bs : Forall (fun b => b <> 0) bs ->
  de_string host ([0xEF; 0xBB; 0xBF] ++ bs) = DErr (InsufficientData 1 0) [].
Proof.
  intros H. cbn [app]. unfold de_string. rewrite (de2_mark 0xEFBB) by (reflexivity || lia). cbn [dbind].
  change (0xEFBB =? 0xEFBB) with true. cbv iota. unfold deserialize_utf8. rewrite de1. cbn [dbind].
  change (0xBF =? 0xBF) with true. cbn [negb]. unfold de_raw.
  rewrite raw_loop_unterminated by (assumption || lia). reflexivity.
Qed.

Lemma raw_loop2_unterminated : forall us tail fuel, (length (units_be us ++ tail) < fuel)%nat ->
  Forall (fun u => u < 65536 /\ u <> 0) us -> (length tail <= 1)%nat ->
  raw_loop (de_uint 2) fuel (units_be us ++ tail) = DErr (InsufficientData 2 (len tail)) tail.
Proof.
  induction us as [|u us IH]; intros tail fuel Hf H Ht.
  - destruct fuel as [|fuel]; [lia|]. cbn [units_be map concat app raw_loop].
    unfold units_be. cbn [map concat app]. rewrite de_uint_short by lia. reflexivity.
  - destruct fuel as [|fuel]; [lia|]. inversion H as [|? ? [Hu Hn] Hus]; subst.
    assert (E : units_be (u :: us) ++ tail = enc_be u ++ (units_be us ++ tail)) by reflexivity.
    rewrite E in *. cbn [raw_loop]. rewrite de2_reads by exact Hu. cbn [dbind].
    destruct (N.eqb_spec u 0); [contradiction|]. rewrite IH; [reflexivity| |exact Hus|exact Ht].
    rewrite app_length in Hf. cbn [enc_be length] in Hf. lia.
Qed.

Lemma utf16_unterminated host us tail : Forall (fun u => u < 65536 /\ u <> 0) us -> (length tail <= 1)%nat ->
  de_string host ([0xFE; 0xFF] ++ units_be us ++ tail) = DErr (InsufficientData 2 (len tail)) tail.
Proof.
  intros H Ht. cbn [app]. unfold de_string. rewrite (de2_mark 0xFEFF) by (reflexivity || lia). cbn [dbind].
  change (0xFEFF =? 0xEFBB) with false. change (0xFEFF =? 0xFEFF) with true. cbv iota.
  unfold deserialize_utf16. cbv zeta iota. unfold de_raw.
  rewrite raw_loop2_unterminated by (assumption || lia). reflexivity.
Qed.

(** Terminated but ill-formed: an error that says so. *)
Lemma utf8_ill_formed host raw rest : bytes_ok raw -> Forall (fun b => b <> 0) raw ->
  (forall s, Forall scalar s -> raw <> utf8 s) ->
  de_string host ([0xEF; 0xBB; 0xBF] ++ raw ++ [0] ++ rest) = DErr (DeOther InvalidUtf8) rest.
Proof.
  intros Hb Hn Hi. cbn [app]. unfold de_string. rewrite (de2_mark 0xEFBB) by (reflexivity || lia). cbn [dbind].
  change (0xEFBB =? 0xEFBB) with true. cbv iota. unfold deserialize_utf8. rewrite de1. cbn [dbind].
  change (0xBF =? 0xBF) with true. cbn [negb].
  assert (E := de_raw1_complete raw rest (Forall_and_intro _ _ _ Hb Hn)). cbn [app] in E. rewrite E.
  cbn [dbind]. destruct (from_utf8 raw) as [s|] eqn:Es; [|reflexivity].
  apply from_utf8_iff in Es; [|exact Hb]. destruct Es as [Hs Hr]. elim (Hi s Hs Hr).
Qed.

Lemma wrong_mark host a b rest : a < 256 -> b < 256 ->
  ~ (a = 0xEF /\ b = 0xBB) -> ~ (a = 0xFE /\ b = 0xFF) -> ~ (a = 0xFF /\ b = 0xFE) ->
  de_string host (a :: b :: rest) = DErr (DeOther (InvalidMark (a * 256 + b))) rest.
Proof.
  intros Ha Hb H1 H2 H3. unfold de_string. rewrite (de2_mark (a * 256 + b)) by (reflexivity || assumption).
  cbn [dbind]. destruct (N.eqb_spec (a * 256 + b) 0xEFBB); [lia|].
  destruct (N.eqb_spec (a * 256 + b) 0xFEFF); [lia|]. destruct (N.eqb_spec (a * 256 + b) 0xFFFE); [lia|].
  reflexivity.
Qed.

Lemma no_mark host buf : (length buf < 2)%nat -> de_string host buf = DErr (InsufficientData 2 (len buf)) buf.
Proof. intros H. unfold de_string. rewrite de_uint_short by exact H. reflexivity. Qed.
Lemma wrong_utf8_mark host c rest : c < 256 -> c <> 0xBF ->
  de_string host (0xEF :: 0xBB :: c :: rest) = DErr (DeOther (BadUtf8Mark c)) rest.
Proof.
  intros H N. unfold de_string. rewrite (de2_mark 0xEFBB) by (reflexivity || lia). cbn [dbind]. change (0xEFBB =? 0xEFBB) with true. cbv iota. unfold deserialize_utf8. rewrite de1. cbn [dbind].
  destruct (N.eqb_spec c 0xBF); [contradiction|]. reflexivity.
Qed.
Lemma short_utf8_mark host : de_string host [0xEF; 0xBB] = DErr (InsufficientData 1 0) [].
Proof. reflexivity. Qed.
Lemma raw_loop2le_unterminated : forall us tail fuel, (length (units_le us ++ tail) < fuel)%nat ->
  Forall (fun u => u < 65536 /\ u <> 0) us -> (length tail <= 1)%nat ->
  raw_loop (fun buf => dmap swap_bytes2 (de_uint 2 buf)) fuel (units_le us ++ tail) = DErr (InsufficientData 2 (len tail)) tail.
Proof.
  induction us as [|u us IH]; intros tail fuel Hf H Ht.
  - destruct fuel as [|fuel]; [lia|]. cbn [raw_loop]. unfold units_le. cbn [map concat app]. rewrite de_uint_short by lia. reflexivity.
  - destruct fuel as [|fuel]; [lia|]. inversion H as [|? ? [Hu Hn] Hus]; subst.
    assert (E : units_le (u :: us) ++ tail = enc_le u ++ (units_le us ++ tail)) by reflexivity.
    rewrite E in *. cbn [raw_loop]. rewrite de2_swap_reads by exact Hu. cbn [dbind].
    destruct (N.eqb_spec u 0); [contradiction|]. rewrite IH; [reflexivity| |exact Hus|exact Ht].
    rewrite app_length in Hf. cbn [enc_le length] in Hf. lia.
Qed.
Lemma utf16_le_unterminated us tail : Forall (fun u => u < 65536 /\ u <> 0) us -> (length tail <= 1)%nat ->
  de_string Little ([0xFF; 0xFE] ++ units_le us ++ tail) = DErr (InsufficientData 2 (len tail)) tail.
Proof.
  intros H Ht. cbn [app]. unfold de_string. rewrite (de2_mark 0xFFFE) by (reflexivity || lia). cbn [dbind].
  change (0xFFFE =? 0xEFBB) with false. change (0xFFFE =? 0xFEFF) with false. change (0xFFFE =? 0xFFFE) with true. cbv iota. unfold deserialize_utf16. cbv zeta iota.
  change (from_be2 Little) with swap_bytes2. unfold de_raw. rewrite raw_loop2le_unterminated by (assumption || lia). reflexivity.
Qed.
Lemma units_only us : Forall (fun u => u < 65536 /\ u <> 0) us -> Forall unit16 us.
Proof. apply Forall_impl. intros u [U _]. exact U. Qed.
Lemma utf16_be_ill_formed host us rest : Forall (fun u => u < 65536 /\ u <> 0) us -> (forall s, Forall scalar s -> us <> utf16 s) ->
  de_string host ([0xFE; 0xFF] ++ units_be us ++ [0; 0] ++ rest) = DErr (DeOther InvalidUtf16) rest.
Proof.
  intros H Hi. cbn [app]. unfold de_string. rewrite (de2_mark 0xFEFF) by (reflexivity || lia). cbn [dbind].
  change (0xFEFF =? 0xEFBB) with false. change (0xFEFF =? 0xFEFF) with true. cbv iota. unfold deserialize_utf16. cbv zeta iota.
  assert (E := de_raw2_complete us rest H). cbn [app] in E. rewrite E. cbn [dbind]. destruct (from_utf16 us) as [s|] eqn:Es; [|reflexivity].
  apply from_utf16_iff in Es; [|exact (units_only _ H)]. destruct Es as [Hs Hr]. elim (Hi s Hs Hr).
Qed.
Lemma utf16_le_ill_formed us rest : Forall (fun u => u < 65536 /\ u <> 0) us -> (forall s, Forall scalar s -> us <> utf16 s) ->
  de_string Little ([0xFF; 0xFE] ++ units_le us ++ [0; 0] ++ rest) = DErr (DeOther InvalidUtf16) rest.
Proof.
  intros H Hi. cbn [app]. unfold de_string. rewrite (de2_mark 0xFFFE) by (reflexivity || lia). cbn [dbind].
  change (0xFFFE =? 0xEFBB) with false. change (0xFFFE =? 0xFEFF) with false. change (0xFFFE =? 0xFFFE) with true. cbv iota. unfold deserialize_utf16. cbv zeta iota.
  change (from_be2 Little) with swap_bytes2. assert (E := de_raw2le_complete us rest H). cbn [app] in E. rewrite E. cbn [dbind]. destruct (from_utf16 us) as [s|] eqn:Es; [|reflexivity].
  apply from_utf16_iff in Es; [|exact (units_only _ H)]. destruct Es as [Hs Hr]. elim (Hi s Hs Hr).
Qed.
