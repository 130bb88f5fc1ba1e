(** Theorems about several endpoints over UDP on a network. *)
From Coq Require Import List NArith Bool PeanoNat Lia Permutation Sorted.
From Verif Require Import BytesModel BytesProofs WireSpec UniverseModel SomeipModel SomeipSpec SomeipTheorems MapModel EndpointProofs
  RuntimeModel RuntimeSpec RuntimeProofs RuntimeTheorems RuntimePacketTheorems RuntimeSendTheorems RuntimeAddrTheorems
  NodeModel NodeSpec NodeProofs NodeTheorems.
From Verif Require UdpModel UdpSpec UdpProofs UdpInv UdpTheorems.
Import ListNotations.
Open Scope nat_scope.

(** ** How messages are read *)
Lemma st_small t : match t with StUnknown v => v < 2 ^ 8 | _ => True end%N -> (st_as_u8 t < 256)%N.
Proof. destruct t; cbn; intros H; try reflexivity. exact H. Qed.
Lemma sc_small t : match t with ScReserved v | ScUnknown v => v < 2 ^ 8 | _ => True end%N -> (sc_as_u8 t < 256)%N.
Proof. destruct t; cbn; intros H; try reflexivity; exact H. Qed.
Lemma read_back_ordinary m : typed m -> (8 + len (s_payload m) < 2 ^ 32)%N -> ordinary (read_back m).
Proof.
  intros [(A & B & C & D & E & F & G & I) Hb] L. apply st_small in G. apply sc_small in I.
  destruct (types_agree _ G) as [_ T]. destruct (codes_agree _ I) as [_ K].
  split; [|split; [exact Hb|split; [exact L|]]]; cbn; rewrite ?T, ?K; [|auto].
  repeat (split; [assumption|]). split.
  - cbn. destruct (st_from_u8 (st_as_u8 (s_mtype m))); try exact Logic.I. cbn in T. rewrite T. exact G.
  - cbn. destruct (sc_from_u8 (sc_as_u8 (s_rcode m))); try exact Logic.I; cbn in K; rewrite K; exact I.
Qed.
Lemma encode_read_back m : typed m -> encode m = encode (read_back m).
Proof.
  intros [(A & B & C & D & E & F & G & I) Hb]. apply st_small in G. apply sc_small in I.
  destruct (types_agree _ G) as [_ T]. destruct (codes_agree _ I) as [_ K].
  destruct m as [sv me cl se pr itf mt rc pl]. cbn [s_mtype s_rcode s_payload] in *. unfold encode, read_back. cbn [s_payload s_service s_method s_client s_session s_protocol s_interface s_mtype s_rcode].
  cbn [serialize ser_smessage]. unfold s_id, s_tuple, serialize_len. cbn [s_payload s_service s_method s_client s_session s_protocol s_interface s_mtype s_rcode].
  unfold ser_s_tuple. cbn. rewrite T, K. reflexivity.
Qed.
Lemma read_back_id m : ordinary m -> read_back m = m.
Proof. intros (_ & _ & _ & T & C). destruct m. unfold read_back. cbn in *. rewrite <- T, <- C. reflexivity. Qed.
Lemma packet_sent m : typed m -> packet_messages (encode m) = if (8 + len (s_payload m) <? 2 ^ 32)%N then [read_back m] else [].
Proof.
  intros T. unfold packet_messages. destruct (N.ltb_spec (8 + len (s_payload m)) (2 ^ 32)) as [L|L].
  - pose proof (read_back_ordinary _ T L) as O. rewrite encode_read_back, encode_form by assumption.
    pose proof (packet_all [read_back m] (Forall_cons _ O (Forall_nil _))) as P. cbn [map concat] in P. rewrite app_nil_r in P. rewrite P. reflexivity.
  - destruct T as [(A & B & _) _]. rewrite encode_too_long by assumption.
    pose proof (packet_spoiled [] (be 2 (s_service m) ++ be 2 (s_method m))) as P. cbn [map concat app] in P. rewrite P; [reflexivity|constructor| | |].
    + apply Forall_app. split; apply be_is_byte.
    + intros Q. apply (f_equal (@length _)) in Q. rewrite app_length, 2 be_length in Q. discriminate.
    + left. unfold len. rewrite app_length, 2 be_length. reflexivity.
Qed.
Lemma packets_sent ms : Forall typed ms -> subseq (flat_map packet_messages (map encode ms)) (map read_back ms).
Proof.
  induction 1 as [|m ms T F IH]; [constructor|]. cbn. rewrite packet_sent by exact T.
  destruct (8 + len (s_payload m) <? 2 ^ 32)%N; [apply sub_take|apply sub_skip]; exact IH.
Qed.
Lemma subseq_among {A} (l m : list A) : subseq l m -> among l m.
Proof.
  induction 1 as [|x l m H [r P]|x l m H [r P]]; [apply among_refl| |].
  - exists (x :: r). apply Permutation_sym, Permutation_cons_app, Permutation_sym. exact P.
  - exists r. cbn. apply perm_skip. exact P.
Qed.

(** ** One peer *)
Lemma from_peer_app {A} a (l m : list (N * A)) : from_peer a (l ++ m) = from_peer a l ++ from_peer a m.
Proof. unfold from_peer. rewrite filter_app, map_app. reflexivity. Qed.
Lemma from_peer_perm {A} a (l m : list (N * A)) : Permutation l m -> Permutation (from_peer a l) (from_peer a m).
Proof.
  intros P. unfold from_peer. apply Permutation_map. induction P as [|x l m P IH|x y l|l m n P1 IH1 P2 IH2]; cbn.
  - constructor.
  - destruct (N.eqb (fst x) a); [apply perm_skip|]; exact IH.
  - destruct (N.eqb (fst x) a); destruct (N.eqb (fst y) a); try apply perm_swap; apply Permutation_refl.
  - eapply Permutation_trans; eassumption.
Qed.
Lemma from_peer_among {A} a (l m : list (N * A)) : among l m -> among (from_peer a l) (from_peer a m).
Proof. intros [r P]. exists (from_peer a r). rewrite <- from_peer_app. apply from_peer_perm. exact P. Qed.
Lemma from_peer_map {A B} (f : A -> B) a (l : list (N * A)) : from_peer a (map (fun p => (fst p, f (snd p))) l) = map f (from_peer a l).
Proof. unfold from_peer. induction l as [|[b x] l IH]; [reflexivity|]. cbn in *. destruct (N.eqb b a); cbn; rewrite IH; reflexivity. Qed.
Lemma from_peer_messages a ds : from_peer a (messages_in ds) = flat_map packet_messages (from_peer a ds).
Proof.
  unfold messages_in. induction ds as [|[b d] ds IH]; [reflexivity|]. cbn [flat_map fst snd]. rewrite from_peer_app, IH. unfold from_peer.
  cbn [filter fst]. assert (K : map snd (filter (fun p : N * msg => N.eqb (fst p) a) (map (pair b) (packet_messages d))) = if N.eqb b a then packet_messages d else []).
  { induction (packet_messages d) as [|m l IHl]; cbn; [destruct (N.eqb b a); reflexivity|]. destruct (N.eqb b a); cbn; [f_equal|]; exact IHl. }
  rewrite K. destruct (N.eqb b a); reflexivity.
Qed.
Lemma from_peer_in {A} a (l : list (N * A)) x : In x (from_peer a l) <-> In (a, x) l.
Proof.
  unfold from_peer. rewrite in_map_iff. split.
  - intros ([b y] & E & I). cbn in E. subst y. apply filter_In in I. destruct I as [I B]. cbn in B. apply N.eqb_eq in B. subst b. exact I.
  - intros I. exists (a, x). split; [reflexivity|]. apply filter_In. split; [exact I|]. apply N.eqb_refl.
Qed.

Section Locks.
Context (bk : iid -> N) (cbk : N -> N).
Local Notation step := (step bk cbk).
Local Notation history := (history bk cbk true).
Local Notation node_step := (node_step bk cbk).
Local Notation nhistory := (nhistory bk cbk).
Local Notation net_history := (net_history bk cbk).

Lemma end_to_end tr w a b m : net_history tr w -> Forall (fun p => typed (snd p)) (accepted_for (at_node a tr)) ->
  In (a, m) (read_by_users (at_node b tr)) -> exists m', In (b, m') (accepted_for (at_node a tr)) /\ m = read_back m'.
Proof.
  intros H T I. destruct (delivered_was_sent _ _ _ _ _ _ _ H I) as (m' & J & K). exists m'. split; [exact J|].
  rewrite Forall_forall in T. specialize (T _ J). cbn in T. rewrite packet_sent in K by exact T.
  destruct (8 + len (s_payload m') <? 2 ^ 32)%N; [|contradiction]. destruct K as [K|[]]. symmetry. exact K.
Qed.

Lemma typed_for a tr : Forall (fun p => typed (snd p)) (accepted_for tr) -> Forall typed (from_peer a (accepted_for tr)).
Proof. rewrite 2 Forall_forall. intros F m I. apply from_peer_in in I. exact (F _ I). Qed.

Lemma end_to_end_once tr w a b : net_history tr w -> Forall (fun p => typed (snd p)) (accepted_for (at_node a tr)) ->
  unduplicated a b tr ->
  among (from_peer a (read_by_users (at_node b tr))) (map read_back (from_peer b (accepted_for (at_node a tr)))).
Proof.
  intros H T U. pose proof (at_history _ _ _ _ b H) as B. pose proof (at_history _ _ _ _ a H) as A.
  eapply among_trans; [apply from_peer_among; eapply only_what_arrived; exact B|]. rewrite from_peer_messages.
  eapply among_trans; [apply among_flat_map; exact U|]. unfold carried.
  destruct (only_what_was_accepted _ _ _ _ A) as [W _]. apply (from_peer_among b) in W. rewrite from_peer_map in W.
  eapply among_trans; [apply among_flat_map; exact W|]. apply subseq_among, packets_sent, typed_for. exact T.
Qed.

(** If all of what [a] sends to [b] goes through one connection. *)
Lemma through_one tr s b : nhistory tr s ->
  (forall d d', opened d b (runtime_trace tr) -> opened d' b (runtime_trace tr) -> d = d') ->
  exists c, from_peer b (sent_out tr) = sent c (runtime_trace tr) /\ from_peer b (accepted_for tr) = accepted c (runtime_trace tr) /\
    (forall d, opened d b (runtime_trace tr) -> d = c).
Proof.
  intros H O. destruct (outs_facts _ _ _ _ H) as (E & F & G). pose proof (runtime_history _ _ _ _ H) as R.
  rewrite E, (accepted_is _ _ _ _ H).
  assert (P : forall d, d < length (r_conns (n_rt s)) -> peer s d = b -> opened d b (runtime_trace tr)).
  { intros d L K'. apply peer_opened. rewrite (peer_is _ _ _ _ R). unfold peer in K'.
    destruct (nth_error (map c_addr (r_conns (n_rt s))) d) as [x|] eqn:X; [rewrite (nth_error_nth _ _ _ X) in K'; congruence|].
    apply nth_error_None in X. rewrite map_length in X. lia. }
  destruct (existsb (fun d => N.eqb (peer s d) b) (seq 0 (length (r_conns (n_rt s))))) eqn:Z.
  - apply existsb_exists in Z. destruct Z as (c & I & K). apply in_seq in I. apply N.eqb_eq in K. exists c.
    assert (Oc : opened c b (runtime_trace tr)) by (apply P; [lia|exact K]).
    assert (Q : forall A (l : list (nat * A)), Forall (fun p => fst p < length (r_conns (n_rt s))) l ->
      from_peer b (map (fun p => (peer s (fst p), snd p)) l) = map snd (filter (fun p => fst p =? c) l)).
    { intros A l. induction l as [|[d x] l IH]; intros Fl; [reflexivity|]. inversion Fl as [|? ? Fd Fl']; subst. specialize (IH Fl').
      unfold from_peer in *. cbn [map filter fst snd] in *. destruct (N.eqb_spec (peer s d) (peer s c)) as [K1|K1].
      - rewrite (O d c (P d Fd K1) Oc), Nat.eqb_refl. cbn. f_equal. exact IH.
      - destruct (Nat.eqb_spec d c) as [->|]; [congruence|]. exact IH. }
    rewrite 2 Q; [|exact G|eapply Forall_impl; [|exact F]; intros p K1; apply K1].
    rewrite outs_sent, oks_accepted. split; [reflexivity|]. split; [reflexivity|]. intros d D. apply O; assumption.
  - assert (N : forall d, d < length (r_conns (n_rt s)) -> peer s d <> b).
    { intros d L K. apply Bool.not_true_iff_false in Z. apply Z. apply existsb_exists. exists d. split; [apply in_seq; lia|apply N.eqb_eq; exact K]. }
    assert (Q : forall A (l : list (nat * A)), Forall (fun p => fst p < length (r_conns (n_rt s))) l ->
      from_peer b (map (fun p => (peer s (fst p), snd p)) l) = []).
    { intros A l. induction l as [|[d x] l IH]; intros Fl; [reflexivity|]. inversion Fl as [|? ? Fd Fl']; subst. specialize (IH Fl').
      unfold from_peer in *. cbn [map filter fst snd] in *. destruct (N.eqb_spec (peer s d) b) as [K1|K1]; [exfalso; exact (N _ Fd K1)|exact IH]. }
    exists (length (r_conns (n_rt s))). rewrite 2 Q; [|exact G|eapply Forall_impl; [|exact F]; intros p K1; apply K1].
    rewrite <- outs_sent, <- oks_accepted.
    assert (W : forall A (l : list (nat * A)), Forall (fun p => fst p < length (r_conns (n_rt s))) l -> map snd (filter (fun p => fst p =? length (r_conns (n_rt s))) l) = []).
    { intros A l Fl. induction Fl as [|[d x] l Fd Fl IH]; [reflexivity|]. cbn in *. destruct (Nat.eqb_spec d (length (r_conns (n_rt s)))); [lia|exact IH]. }
    rewrite 2 W; [|exact G|eapply Forall_impl; [|exact F]; intros p K1; apply K1]. split; [reflexivity|]. split; [reflexivity|].
    intros d D. exfalso. destruct (opened_is_peer _ _ _ _ _ _ H D) as [L K]. exact (N _ L K).
Qed.
Lemma one_connection tr s b : nhistory tr s ->
  (forall d d', opened d b (runtime_trace tr) -> opened d' b (runtime_trace tr) -> d = d') ->
  subseq (from_peer b (sent_out tr)) (map encode (from_peer b (accepted_for tr))).
Proof.
  intros H O. destruct (through_one _ _ _ H O) as (c & -> & -> & _).
  destruct (fifo_sends _ _ _ _ _ c (runtime_history _ _ _ _ H)) as (lost & A & _). rewrite A.
  rewrite <- (app_nil_r (sent _ _)) at 1. apply subseq_app; [apply subseq_refl|apply subseq_nil].
Qed.
(** ... all but the last two accepted messages are with the network, if not more. *)
Lemma sent_complete tr s b : nhistory tr s ->
  (forall d d', opened d b (runtime_trace tr) -> opened d' b (runtime_trace tr) -> d = d') ->
  exists unsent, map encode (from_peer b (accepted_for tr)) = from_peer b (sent_out tr) ++ unsent /\ length unsent <= 2.
Proof.
  intros H O. destruct (through_one _ _ _ H O) as (c & -> & -> & _).
  destruct (fifo_sends _ _ _ _ _ c (runtime_history _ _ _ _ H)) as (lost & A & L & _). exists (rejected c (runtime_trace tr) ++ lost). auto.
Qed.

(** A network that has delivered everything, in order. *)
Lemma packets_all ms : Forall typed ms -> Forall (fun m => 8 + len (s_payload m) < 2 ^ 32)%N ms -> flat_map packet_messages (map encode ms) = map read_back ms.
Proof.
  induction 1 as [|m ms T F IH]; intros L; [reflexivity|]. inversion L as [|? ? L1 L2]; subst. cbn. rewrite packet_sent by exact T.
  apply N.ltb_lt in L1. rewrite L1. cbn. f_equal. apply IH. exact L2.
Qed.
Lemma map_app_inv {A B} (f : A -> B) l : forall u v, map f l = u ++ v -> exists l1 l2, l = l1 ++ l2 /\ map f l1 = u /\ map f l2 = v.
Proof.
  induction l as [|x l IH]; intros u v E.
  - symmetry in E. apply app_eq_nil in E. destruct E as [-> ->]. exists [], []. auto.
  - destruct u as [|y u]; cbn in E.
    + exists [], (x :: l). auto.
    + injection E as <- E. destruct (IH _ _ E) as (l1 & l2 & -> & <- & <-). exists (x :: l1), l2. auto.
Qed.
Lemma nothing_lost_between tr w a b : net_history tr w ->
  Forall (fun p => typed (snd p) /\ (8 + len (s_payload (snd p)) < 2 ^ 32)%N) (accepted_for (at_node a tr)) ->
  (forall d d', opened d b (runtime_trace (at_node a tr)) -> opened d' b (runtime_trace (at_node a tr)) -> d = d') ->
  from_peer a (datagrams (at_node b tr)) = carried a b tr ->
  exists unsent, map read_back (from_peer b (accepted_for (at_node a tr))) =
                 flat_map packet_messages (from_peer a (datagrams (at_node b tr))) ++ unsent /\ length unsent <= 2.
Proof.
  intros H T O N. destruct (sent_complete _ _ _ (at_history _ _ _ _ a H) O) as (un & E & L). rewrite N. unfold carried.
  apply map_app_inv in E. destruct E as (l1 & l2 & E & E1 & E2). rewrite <- E1. exists (map read_back l2).
  assert (K : Forall (fun m => typed m /\ (8 + len (s_payload m) < 2 ^ 32)%N) (l1 ++ l2)).
  { rewrite <- E. rewrite Forall_forall in T |- *. intros m I. apply from_peer_in in I. exact (T _ I). }
  apply Forall_app in K. destruct K as [K _]. rewrite packets_all.
  - rewrite E, map_app. split; [reflexivity|]. rewrite map_length, <- (map_length encode), E2. exact L.
  - eapply Forall_impl; [|exact K]. intros m M. apply M.
  - eapply Forall_impl; [|exact K]. intros m M. apply M.
Qed.

Lemma end_to_end_order tr w a b n c : net_history tr w -> Forall (fun p => typed (snd p)) (accepted_for (at_node a tr)) ->
  in_sequence a b tr ->
  (forall d d', opened d b (runtime_trace (at_node a tr)) -> opened d' b (runtime_trace (at_node a tr)) -> d = d') ->
  opened c a (runtime_trace (at_node b tr)) ->
  subseq (map it_msg (from_conn c (stub_got n (runtime_trace (at_node b tr))))) (map read_back (from_peer b (accepted_for (at_node a tr)))) /\
  subseq (map it_msg (from_conn c (proxy_got n (runtime_trace (at_node b tr))))) (map read_back (from_peer b (accepted_for (at_node a tr)))).
Proof.
  intros H T S U O. pose proof (at_history _ _ _ _ b H) as B. pose proof (at_history _ _ _ _ a H) as A.
  assert (K : subseq (flat_map packet_messages (from_peer a (datagrams (at_node b tr)))) (map read_back (from_peer b (accepted_for (at_node a tr))))).
  { eapply subseq_trans; [|apply subseq_flat_map; exact S]. unfold carried.
    eapply subseq_trans; [|apply subseq_flat_map; eapply one_connection; [exact A|exact U]]. apply packets_sent, typed_for. exact T. }
  destruct (order_kept _ _ _ _ n _ _ B O) as [S1 S2]. split; (eapply subseq_trans; [exact K|assumption]).
Qed.
(** Schedules that run are histories. *)
Lemma node_run_history es : forall tr s s' tr', nhistory tr s -> node_run bk cbk s es = Some (s', tr') -> nhistory (tr ++ tr') s'.
Proof.
  induction es as [|e es IH]; intros tr s s' tr' H R; cbn in R.
  - injection R as <- <-. rewrite app_nil_r. exact H.
  - destruct (node_step s e) as [[s1 x]|] eqn:E; [|discriminate].
    destruct (node_run bk cbk s1 es) as [[s2 t2]|] eqn:R2; [|discriminate]. cbn in R. injection R as <- <-.
    replace (tr ++ x :: t2) with ((tr ++ [x]) ++ t2) by (rewrite <- app_assoc; reflexivity).
    eapply IH; [|exact R2]. econstructor; eassumption.
Qed.
Lemma carried_before_allows tr b e : carried_before tr b e = true -> net_allows tr b e.
Proof.
  destruct e; cbn; auto. rewrite existsb_exists. intros ([[x y] z] & I & E).
  apply andb_true_iff in E. destruct E as [E F]. apply andb_true_iff in E. destruct E as [E G]. cbn in *.
  apply N.eqb_eq in E. apply N.eqb_eq in G. subst. match type of F with (if ?q then _ else _) = _ => destruct q as [Q|]; [rewrite <- Q; exact I|discriminate] end.
Qed.
Lemma net_run_history es : forall tr w w' tr', net_history tr w -> net_run bk cbk w tr es = Some (w', tr') -> net_history tr' w'.
Proof.
  induction es as [|[a e] es IH]; intros tr w w' tr' H R; cbn in R.
  - injection R as <- <-. exact H.
  - destruct (carried_before tr a e) eqn:C; [|discriminate].
    destruct (node_step (w a) e) as [[s1 x]|] eqn:E; [|discriminate].
    eapply IH; [|exact R]. econstructor; eauto. apply carried_before_allows; assumption.
Qed.

End Locks.
