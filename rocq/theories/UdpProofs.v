(** Invariants of the UDP socket. *)
From Coq Require Import List NArith Bool PeanoNat Sorted Lia Permutation.
From Verif Require Import MapModel EndpointProofs UdpModel UdpSpec.
Import ListNotations.
Open Scope nat_scope.

(** [set_nth]. *)
Section SetNth.
Context {A : Type}.
Lemma set_nth_length n (x : A) l : length (set_nth n x l) = length l.
Proof using.
  unfold set_nth. rewrite app_length, firstn_length. assert (H := skipn_length n l).
  destruct (skipn n l); cbn [length] in *; lia.
Qed.
Lemma set_nth_same n (x : A) l : n < length l -> nth_error (set_nth n x l) n = Some x.
Proof using.
  intros H. unfold set_nth. rewrite nth_error_app2 by (rewrite firstn_length; lia).
  rewrite firstn_length, Nat.min_l by lia. rewrite Nat.sub_diag.
  assert (Hs := skipn_length n l). destruct (skipn n l); cbn [length] in Hs; [lia|reflexivity].
Qed.
Lemma set_nth_other n m (x : A) l : m <> n -> nth_error (set_nth n x l) m = nth_error l m.
Proof using.
  revert n m. induction l as [|y l IH]; intros n m Hd.
  - unfold set_nth. rewrite firstn_nil, skipn_nil. reflexivity.
  - destruct n as [|n]; destruct m as [|m]; try (unfold set_nth; cbn; reflexivity); [lia|].
    change (set_nth (S n) x (y :: l)) with (y :: set_nth n x l). cbn [nth_error]. apply IH. lia.
Qed.
Lemma set_nth_cases n m (x y : A) l : nth_error (set_nth n x l) m = Some y ->
  (m = n /\ y = x) \/ (m <> n /\ nth_error l m = Some y).
Proof using.
  intros H. destruct (Nat.eq_dec m n) as [->|Hd].
  - left. split; [reflexivity|]. destruct (Nat.lt_ge_cases n (length l)) as [Hl|Hl].
    + rewrite set_nth_same in H by exact Hl. congruence.
    + rewrite (proj2 (nth_error_None _ _)) in H by (rewrite set_nth_length; exact Hl). discriminate.
  - right. rewrite set_nth_other in H by exact Hd. split; assumption.
Qed.
Lemma nth_lt (l : list A) n x : nth_error l n = Some x -> n < length l.
Proof using. intros H. apply nth_error_Some. congruence. Qed.
Lemma nth_app_cases (l : list A) x n y : nth_error (l ++ [x]) n = Some y ->
  nth_error l n = Some y \/ (n = length l /\ y = x).
Proof using.
  intros H. destruct (Nat.lt_ge_cases n (length l)) as [Hl|Hl].
  - left. rewrite nth_error_app1 in H by exact Hl. exact H.
  - right. rewrite nth_error_app2 in H by exact Hl.
    destruct (n - length l) as [|k] eqn:E; cbn in H; [|destruct k; discriminate].
    split; [lia|congruence].
Qed.
Lemma nth_app_last (l : list A) x : nth_error (l ++ [x]) (length l) = Some x.
Proof using. rewrite nth_error_app2, Nat.sub_diag by lia. reflexivity. Qed.
Lemma nth_app_old (l : list A) x n y : nth_error l n = Some y -> nth_error (l ++ [x]) n = Some y.
Proof using. intros H. rewrite nth_error_app1 by (exact (nth_lt _ _ _ H)). exact H. Qed.
Lemma skipn_nth (l : list A) n y : nth_error l n = Some y -> skipn n l = y :: skipn (S n) l.
Proof using.
  revert l. induction n as [|n IH]; intros [|z l] H; cbn in *; try discriminate; [congruence|]. apply IH. exact H.
Qed.
Lemma set_nth_split n (x y : A) l : nth_error l n = Some y ->
  exists l1 l2, l = l1 ++ y :: l2 /\ set_nth n x l = l1 ++ x :: l2.
Proof using.
  intros H. exists (firstn n l), (skipn (S n) l). unfold set_nth.
  assert (E := skipn_nth _ _ _ H).
  rewrite E. split; [|reflexivity]. rewrite <- E. symmetry. apply firstn_skipn.
Qed.
Lemma skipn_add a b (l : list A) : skipn a (skipn b l) = skipn (b + a) l.
Proof using.
  revert l. induction b as [|b IH]; intros l; [reflexivity|]. destruct l as [|x l]; [rewrite !skipn_nil; reflexivity|]. cbn [skipn Nat.add]. apply IH.
Qed.
End SetNth.

(** What a step can be. *)
Inductive stepped (s : udp) : event -> obs -> udp -> Prop :=
| s_packet a data : u_task s = Idle ->
    stepped s (EPacket a data) OUnit
      (mkU (u_open s) (u_receivers s) (u_listener s) (Arrived (mkP (u_count s) (firstn 1400 data)) a)
           (u_chans s) (u_lsts s) (S (u_count s)))
| s_error : u_task s = Idle -> stepped s EError OUnit (set_task s Stopped)
| s_found p a c : u_task s = Arrived p a -> map_get N.eqb a (u_receivers s) = Some c ->
    stepped s ETask OUnit (set_task s (Got p a c))
| s_notfound p a : u_task s = Arrived p a -> map_get N.eqb a (u_receivers s) = None ->
    stepped s ETask OUnit (set_task s (NewConn p a))
| s_deliver p a c ch : u_task s = Got p a c -> nth_error (u_chans s) c = Some ch -> c_rx ch = true ->
    stepped s ETask OUnit
      (set_task (set_chan s c (mkC (c_addr ch) (c_cap ch) (c_sent ch ++ [p]) (c_next ch) (c_rx ch))) Idle)
| s_fail p a c ch : u_task s = Got p a c -> nth_error (u_chans s) c = Some ch -> c_rx ch = false ->
    stepped s ETask OUnit (set_task s (Failed p a))
| s_remove p a : u_task s = Failed p a ->
    stepped s ETask OUnit (set_task (set_receivers s (map_remove N.eqb a (u_receivers s))) (NewConn p a))
| s_nolistener p a : u_task s = NewConn p a -> u_listener s = None -> stepped s ETask OUnit (set_task s Idle)
| s_queue p a l x : u_task s = NewConn p a -> u_listener s = Some l -> nth_error (u_lsts s) l = Some x ->
    l_rx x = true -> length (l_queue x) < l_cap x ->
    stepped s ETask OUnit
      (set_task (add_chan (set_lst s l (mkL (l_cap x) (l_queue x ++ [(length (u_chans s), a)]) true))
                          (mkC a 32 [] 0 true)) (Queued p a (length (u_chans s))))
| s_full p a l x : u_task s = NewConn p a -> u_listener s = Some l -> nth_error (u_lsts s) l = Some x ->
    l_rx x = true -> l_cap x <= length (l_queue x) -> stepped s ETask OUnit (set_task s Idle)
| s_unlisten p a l x : u_task s = NewConn p a -> u_listener s = Some l -> nth_error (u_lsts s) l = Some x ->
    l_rx x = false -> stepped s ETask OUnit (set_task (set_listener s None) Idle)
| s_first p a c ch : u_task s = Queued p a c -> nth_error (u_chans s) c = Some ch -> c_rx ch = true ->
    stepped s ETask OUnit
      (set_task (set_chan s c (mkC (c_addr ch) (c_cap ch) (c_sent ch ++ [p]) (c_next ch) (c_rx ch))) (Sent a c))
| s_nofirst p a c ch : u_task s = Queued p a c -> nth_error (u_chans s) c = Some ch -> c_rx ch = false ->
    stepped s ETask OUnit (set_task s (Sent a c))
| s_register a c : u_task s = Sent a c ->
    stepped s ETask OUnit (set_task (set_receivers s (map_insert N.eqb a c (u_receivers s))) Idle)
| s_connect a : u_open s = true ->
    stepped s (EConnect a) (OConnected (length (u_chans s)))
      (set_receivers (add_chan s (mkC a 8 [] 0 true)) (map_insert N.eqb a (length (u_chans s)) (u_receivers s)))
| s_listen0 : u_open s = true -> stepped s (EListen 0) OPanic s
| s_listen n : u_open s = true -> listener_locked s = false -> n <> 0 ->
    stepped s (EListen n) (OListening (length (u_lsts s)))
      (set_listener (add_lst s (mkL n [] true)) (Some (length (u_lsts s))))
| s_accept l x c a q : nth_error (u_lsts s) l = Some x -> l_rx x = true -> l_queue x = (c, a) :: q ->
    stepped s (EAccept l) (OAccepted c a) (set_lst s l (mkL (l_cap x) q true))
| s_noaccept l x o : nth_error (u_lsts s) l = Some x -> l_rx x = true -> l_queue x = [] ->
    o = OPending \/ o = OAcceptEnd -> stepped s (EAccept l) o s
| s_recv c ch o ch' : nth_error (u_chans s) c = Some ch -> c_rx ch = true -> waiting s c = false ->
    chan_recv (negb (has_sender s c)) ch = (ch', o) -> stepped s (ERecv c) o (set_chan s c ch')
| s_droprx c ch : nth_error (u_chans s) c = Some ch -> c_rx ch = true -> waiting s c = false ->
    stepped s (EDropReceiver c) OUnit (set_chan s c (drop_rx ch))
| s_droplst l x : nth_error (u_lsts s) l = Some x -> l_rx x = true ->
    stepped s (EDropListener l) OUnit (drop_all (l_queue x) (set_lst s l (mkL (l_cap x) [] false)))
| s_dropsocket : u_open s = true ->
    stepped s EDropSocket OUnit (mkU false (u_receivers s) (u_listener s) (u_task s) (u_chans s) (u_lsts s) (u_count s)).

Lemma step_inv s e s' o : step s e = Some (s', o) -> stepped s e o s'.
Proof.
  destruct e; cbn [step]; intros H.
  - destruct (u_task s) eqn:E; try discriminate. injection H as <- <-. apply s_packet. exact E.
  - destruct (u_task s) eqn:E; try discriminate. injection H as <- <-. apply s_error. exact E.
  - unfold task_step in H. destruct (u_task s) eqn:E; cbn [option_map] in H; try discriminate.
    + destruct (map_get N.eqb a (u_receivers s)) eqn:G; injection H as <- <-; [eapply s_found|eapply s_notfound]; eassumption.
    + destruct (nth_error (u_chans s) c) as [ch|] eqn:G; cbn [option_map] in H; try discriminate.
      unfold chan_send in H. destruct (c_rx ch) eqn:R; injection H as <- <-.
      * rewrite <- R at 1. eapply s_deliver; eassumption.
      * eapply s_fail; eassumption.
    + injection H as <- <-. apply s_remove. exact E.
    + destruct (u_listener s) as [l|] eqn:L; cbn [option_map] in H.
      2:{ injection H as <- <-. eapply s_nolistener; eassumption. }
      destruct (nth_error (u_lsts s) l) as [x|] eqn:G; cbn [option_map] in H; try discriminate.
      destruct (l_rx x) eqn:R; cbn [option_map] in H.
      * destruct (Nat.ltb_spec (length (l_queue x)) (l_cap x)) as [Q|Q]; cbn [option_map] in H; injection H as <- <-.
        -- eapply s_queue; eassumption.
        -- eapply s_full; eassumption.
      * injection H as <- <-. eapply s_unlisten; eassumption.
    + destruct (nth_error (u_chans s) c) as [ch|] eqn:G; cbn [option_map] in H; try discriminate.
      unfold chan_send in H. destruct (c_rx ch) eqn:R; injection H as <- <-.
      * rewrite <- R at 1. eapply s_first; eassumption.
      * eapply s_nofirst; eassumption.
    + injection H as <- <-. apply s_register. exact E.
  - destruct (u_open s) eqn:E; try discriminate. injection H as <- <-. apply s_connect. exact E.
  - destruct (u_open s) eqn:E; try discriminate. destruct backlog as [|n].
    + injection H as <- <-. apply s_listen0. exact E.
    + destruct (listener_locked s) eqn:K; try discriminate. injection H as <- <-. apply s_listen; [exact E|exact K|discriminate].
  - destruct (nth_error (u_lsts s) l) as [x|] eqn:G; try discriminate. destruct (l_rx x) eqn:R; try discriminate.
    destruct (l_queue x) as [|[c a] q] eqn:Q.
    + injection H as <- <-. eapply s_noaccept; try eassumption. destruct (has_listener s l); [left|right]; reflexivity.
    + injection H as <- <-. eapply s_accept; eassumption.
  - destruct (nth_error (u_chans s) c) as [ch|] eqn:G; try discriminate. destruct (c_rx ch) eqn:R; try discriminate.
    destruct (waiting s c) eqn:W; cbn [negb andb] in H; try discriminate.
    destruct (chan_recv (negb (has_sender s c)) ch) as [ch' o'] eqn:K. injection H as <- <-. eapply s_recv; eassumption.
  - destruct (nth_error (u_chans s) c) as [ch|] eqn:G; try discriminate. destruct (c_rx ch) eqn:R; try discriminate.
    destruct (waiting s c) eqn:W; cbn [negb andb] in H; try discriminate. injection H as <- <-. eapply s_droprx; eassumption.
  - destruct (nth_error (u_lsts s) l) as [x|] eqn:G; try discriminate. destruct (l_rx x) eqn:R; try discriminate.
    injection H as <- <-. eapply s_droplst; eassumption.
  - destruct (u_open s) eqn:E; try discriminate. injection H as <- <-. apply s_dropsocket. exact E.
Qed.

(** What a receive does. *)
Lemma recv_cases closed ch ch' o : chan_recv closed ch = (ch', o) -> c_next ch <= length (c_sent ch) ->
  c_addr ch' = c_addr ch /\ c_cap ch' = c_cap ch /\ c_sent ch' = c_sent ch /\ c_rx ch' = c_rx ch /\
  c_next ch <= c_next ch' <= length (c_sent ch) /\
  o = due (c_cap ch) closed (skipn (c_next ch) (c_sent ch)) /\
  reads (skipn (c_next ch) (c_sent ch)) [o] (skipn (c_next ch') (c_sent ch)) /\
  match o with
  | OData p => c_next ch' = S (c_next ch) /\ nth_error (c_sent ch) (c_next ch) = Some p
  | OLagged _ => True
  | OClosed => closed = true /\ skipn (c_next ch) (c_sent ch) = [] /\ ch' = ch
  | OPending => closed = false /\ skipn (c_next ch) (c_sent ch) = [] /\ ch' = ch
  | _ => False
  end.
Proof.
  unfold chan_recv, due. intros H Hn. rewrite skipn_length.
  set (sent := c_sent ch) in *. set (n := c_next ch) in *. set (cap := c_cap ch) in *.
  assert (Hx : (n + cap <? length sent) = (cap <? length sent - n)).
  { destruct (Nat.ltb_spec (n + cap) (length sent)), (Nat.ltb_spec cap (length sent - n)); lia || reflexivity. }
  rewrite Hx in H. destruct (Nat.ltb_spec cap (length sent - n)) as [L|L].
  - injection H as <- <-. cbn [c_addr c_cap c_sent c_rx c_next].
    repeat (split; [reflexivity|]). split; [lia|]. split; [f_equal; lia|]. split; [|exact I].
    assert (E : skipn n sent = firstn (length sent - cap - n) (skipn n sent) ++ skipn (length sent - cap) sent).
    { rewrite <- (firstn_skipn (length sent - cap - n) (skipn n sent)) at 1. f_equal.
      rewrite skipn_add. f_equal. lia. }
    rewrite E at 1.
    replace (length sent - cap - n) with (length (firstn (length sent - cap - n) (skipn n sent))) at 2
      by (rewrite firstn_length, skipn_length; lia).
    apply reads_lagged. apply reads_nil.
  - destruct (nth_error sent n) as [p|] eqn:G.
    + injection H as <- <-. cbn [c_addr c_cap c_sent c_rx c_next].
      assert (Hlt := nth_lt _ _ _ G).
      assert (E := skipn_nth _ _ _ G).
      rewrite E. repeat (split; [reflexivity|]). split; [lia|]. split; [reflexivity|]. split; [|split; reflexivity].
      apply reads_data. apply reads_nil.
    + apply nth_error_None in G. assert (E : skipn n sent = []) by (apply skipn_all2; exact G).
      injection H as <- <-. fold sent n. rewrite E. repeat (split; [reflexivity|]). split; [lia|]. split; [reflexivity|].
      destruct closed; (split; [constructor; apply reads_nil|repeat split]).
Qed.

Lemma reads_app q os r os' r' : reads q os r -> reads r os' r' -> reads q (os ++ os') r'.
Proof. intros H. revert os' r'. induction H; intros os' r' H'; cbn; [exact H'|constructor; auto..]. Qed.
Lemma reads_more q os r x : reads q os r -> reads (q ++ x) os (r ++ x).
Proof.
  induction 1; cbn [app].
  - apply reads_nil.
  - apply reads_data. assumption.
  - rewrite <- app_assoc. apply reads_lagged. assumption.
  - apply reads_pending. assumption.
  - apply reads_closed. assumption.
Qed.

(** Traces, extended at the end. *)
Lemma arrivals_app t1 t2 : arrivals (t1 ++ t2) = arrivals t1 ++ arrivals t2.
Proof. induction t1 as [|[e o] t1 IH]; cbn; [reflexivity|]. destruct e; rewrite IH; reflexivity. Qed.
Lemma received_app c t1 t2 : received c (t1 ++ t2) = received c t1 ++ received c t2.
Proof. induction t1 as [|[e o] t1 IH]; cbn; [reflexivity|]. destruct e; rewrite IH; try reflexivity. destruct (_ =? _); reflexivity. Qed.
Lemma delivered_app t1 t2 : delivered (t1 ++ t2) = delivered t1 ++ delivered t2.
Proof. induction t1 as [|[e o] t1 IH]; cbn; [reflexivity|]. destruct o; rewrite IH; reflexivity. Qed.
Lemma opened_app t1 t2 : opened (t1 ++ t2) = opened t1 ++ opened t2.
Proof. induction t1 as [|[e o] t1 IH]; cbn; [reflexivity|]. destruct e, o; cbn [app]; rewrite IH; reflexivity. Qed.
Lemma packets_from_app a n t1 t2 :
  packets_from a n (t1 ++ t2) = packets_from a n t1 ++ packets_from a (n + length (arrivals t1)) t2.
Proof.
  revert n. induction t1 as [|[e o] t1 IH]; intros n; cbn [packets_from app arrivals length].
  - rewrite Nat.add_0_r. reflexivity.
  - destruct e; try apply IH. rewrite IH. cbn [length]. replace (S n + length (arrivals t1)) with (n + S (length (arrivals t1))) by lia.
    destruct (N.eqb a a0); reflexivity.
Qed.

Lemma arrived_more a tr tr' p : arrived a tr p -> arrived a (tr ++ tr') p.
Proof.
  unfold arrived. intros H. rewrite arrivals_app. rewrite nth_error_app1; [exact H|]. exact (nth_lt _ _ _ H).
Qed.
Lemma arrived_lt a tr p : arrived a tr p -> p_no p < length (arrivals tr).
Proof. apply nth_lt. Qed.

(** Channels keep their peer and capacity. *)
Definition grows (s s' : udp) : Prop :=
  forall c ch, nth_error (u_chans s) c = Some ch ->
  exists ch', nth_error (u_chans s') c = Some ch' /\ c_addr ch' = c_addr ch /\ c_cap ch' = c_cap ch.
Lemma grows_refl s : grows s s.
Proof. intros c ch H. exists ch. repeat split. exact H. Qed.
Lemma grows_trans a b c : grows a b -> grows b c -> grows a c.
Proof. intros H1 H2 k ch H. destruct (H1 _ _ H) as (x & X & A1 & A2). destruct (H2 _ _ X) as (y & Y & B1 & B2). exists y. repeat split; [exact Y|congruence..]. Qed.
Lemma grows_chans s s' : u_chans s' = u_chans s -> grows s s'.
Proof. intros E c ch H. exists ch. rewrite E. repeat split. exact H. Qed.
Lemma grows_set s s' c ch ch' : nth_error (u_chans s) c = Some ch -> c_addr ch' = c_addr ch -> c_cap ch' = c_cap ch ->
  u_chans s' = set_nth c ch' (u_chans s) -> grows s s'.
Proof.
  intros H A B E k x Hk. rewrite E. destruct (Nat.eq_dec k c) as [->|Hd].
  - exists ch'. rewrite set_nth_same by (exact (nth_lt _ _ _ H)). rewrite H in Hk. injection Hk as <-. repeat split; assumption.
  - exists x. rewrite set_nth_other by exact Hd. repeat split. exact Hk.
Qed.
Lemma grows_add s s' ch : u_chans s' = u_chans s ++ [ch] -> grows s s'.
Proof. intros E c x H. exists x. rewrite E. repeat split. apply nth_app_old. exact H. Qed.

(** Dropping a queue. *)
Lemma drop_all_other q s :
  u_open (drop_all q s) = u_open s /\ u_receivers (drop_all q s) = u_receivers s /\
  u_listener (drop_all q s) = u_listener s /\ u_task (drop_all q s) = u_task s /\
  u_lsts (drop_all q s) = u_lsts s /\ u_count (drop_all q s) = u_count s /\
  length (u_chans (drop_all q s)) = length (u_chans s).
Proof.
  revert s. induction q as [|[c a] q IH]; intros s; cbn [drop_all]; [repeat split|].
  destruct (nth_error (u_chans s) c) as [ch|]; [|apply IH].
  destruct (IH (set_chan s c (drop_rx ch))) as (H1 & H2 & H3 & H4 & H5 & H6 & H7).
  rewrite H1, H2, H3, H4, H5, H6, H7. cbn. rewrite set_nth_length. repeat split.
Qed.
Lemma drop_all_chan q s c ch : nth_error (u_chans s) c = Some ch ->
  nth_error (u_chans (drop_all q s)) c = Some (if existsb (fun e => fst e =? c) q then drop_rx ch else ch).
Proof.
  revert s ch. induction q as [|[k a] q IH]; intros s ch H; cbn [drop_all existsb fst]; [exact H|].
  destruct (Nat.eqb_spec k c) as [->|Hd]; cbn [orb].
  - rewrite H. rewrite (IH _ (drop_rx ch)).
    + f_equal. destruct (existsb _ q); [|reflexivity]. destruct ch. reflexivity.
    + cbn. apply set_nth_same. exact (nth_lt _ _ _ H).
  - destruct (nth_error (u_chans s) k) as [x|]; apply IH; [|exact H].
    cbn. rewrite set_nth_other by congruence. exact H.
Qed.
Lemma drop_all_cases q s c ch' : nth_error (u_chans (drop_all q s)) c = Some ch' ->
  exists ch, nth_error (u_chans s) c = Some ch /\ ch' = if existsb (fun e => fst e =? c) q then drop_rx ch else ch.
Proof.
  intros H. assert (Hl := nth_lt _ _ _ H). destruct (drop_all_other q s) as (_ & _ & _ & _ & _ & _ & L). rewrite L in Hl.
  apply nth_error_Some in Hl. destruct (nth_error (u_chans s) c) as [ch|] eqn:E; [|congruence].
  exists ch. split; [reflexivity|]. rewrite (drop_all_chan q s c ch E) in H. congruence.
Qed.

Lemma step_grows s e o s' : stepped s e o s' -> (forall c ch, nth_error (u_chans s) c = Some ch -> c_next ch <= length (c_sent ch)) -> grows s s'.
Proof.
  intros [] HN; try (apply grows_chans; reflexivity); try (eapply grows_add; reflexivity);
    try (eapply grows_set; [eassumption|..|reflexivity]; reflexivity).
  - destruct (recv_cases _ _ _ _ H2 (HN _ _ H)) as (A & B & _). eapply grows_set; [exact H|exact A|exact B|reflexivity].
  - intros c ch E. exists (if existsb (fun e => fst e =? c) (l_queue x) then drop_rx ch else ch).
    rewrite (drop_all_chan (l_queue x) (set_lst s l (mkL (l_cap x) [] false)) c ch E). destruct (existsb _ _); repeat split.
Qed.

(** The invariant.  [bound]: every datagram in a channel has a smaller number. *)
Definition bound (s : udp) : nat :=
  match u_task s with
  | Arrived p _ | Got p _ _ | Failed p _ | NewConn p _ | Queued p _ _ => p_no p
  | Idle | Sent _ _ | Stopped => u_count s
  end.
Definition is_chan (s : udp) (c : nat) (a : N) : Prop :=
  exists ch, nth_error (u_chans s) c = Some ch /\ c_addr ch = a.
Definition queued (s : udp) : list (nat * N) := flat_map l_queue (u_lsts s).

Record inv (tr : list (event * obs)) (s : udp) : Prop := mkInv {
  i_count : u_count s = length (arrivals tr);
  i_chan : forall c ch, nth_error (u_chans s) c = Some ch ->
    Forall (arrived (c_addr ch) tr) (c_sent ch) /\ in_order (c_sent ch) /\
    reads (c_sent ch) (received c tr) (skipn (c_next ch) (c_sent ch)) /\
    c_next ch <= length (c_sent ch) /\ Forall (fun p => p_no p < bound s) (c_sent ch);
  i_task : match u_task s with
    | Arrived p a | Failed p a | NewConn p a => arrived a tr p
    | Got p a c | Queued p a c => arrived a tr p /\ is_chan s c a
    | Sent a c => is_chan s c a
    | Idle | Stopped => True
    end;
  i_map : forall a c, In (a, c) (u_receivers s) -> is_chan s c a;
  i_opened : forall c a, In (c, a) (opened tr) -> is_chan s c a;
  i_queue : forall c a, In (c, a) (queued s) -> is_chan s c a;
  i_alive : forall c a ch, In (c, a) (queued s) -> nth_error (u_chans s) c = Some ch -> c_rx ch = true;
  i_ids : NoDup (map fst (opened tr ++ queued s));
  i_listener : forall l, u_listener s = Some l -> l < length (u_lsts s);
  i_room : forall l x, nth_error (u_lsts s) l = Some x -> length (l_queue x) <= l_cap x;
  i_apart : forall c1 c2 ch1 ch2 p q, nth_error (u_chans s) c1 = Some ch1 -> nth_error (u_chans s) c2 = Some ch2 ->
    c1 <> c2 -> In p (c_sent ch1) -> In q (c_sent ch2) -> p_no p <> p_no q;
  i_nobody : forall c, length (u_chans s) <= c -> received c tr = [];
  i_delivered : forall p, In p (delivered tr) -> exists c ch i,
    nth_error (u_chans s) c = Some ch /\ i < c_next ch /\ nth_error (c_sent ch) i = Some p;
  i_once : NoDup (map p_no (delivered tr))
}.

Lemma is_chan_grows s s' c a : grows s s' -> is_chan s c a -> is_chan s' c a.
Proof. intros G (ch & H & A). destruct (G _ _ H) as (ch' & H' & A' & _). exists ch'. split; [exact H'|congruence]. Qed.

Lemma sorted_snoc ps p : in_order ps -> Forall (fun q => p_no q < p_no p) ps -> in_order (ps ++ [p]).
Proof.
  induction ps as [|q ps IH]; intros H F; cbn; [repeat constructor|].
  inversion H; subst. inversion F; subst. constructor; [apply IH; assumption|].
  apply Forall_app. split; [assumption|repeat constructor; assumption].
Qed.
Lemma sorted_nth ps i j p q : in_order ps -> nth_error ps i = Some p -> nth_error ps j = Some q -> i < j -> p_no p < p_no q.
Proof.
  intros H. revert i j. induction H as [|x ps H IH F]; intros i j Hi Hj L; [destruct i; discriminate|].
  destruct j as [|j]; [lia|]. cbn in Hj. destruct i as [|i]; cbn in Hi.
  - injection Hi as <-. rewrite Forall_forall in F. apply F. exact (nth_error_In _ _ Hj).
  - eapply IH; [exact Hi|exact Hj|lia].
Qed.
Lemma map_get_in a c (m : list (N * nat)) : map_get N.eqb a m = Some c -> In (a, c) m.
Proof.
  induction m as [|[b d] m IH]; cbn; [discriminate|]. destruct (N.eqb_spec a b) as [->|_]; intros H; [injection H as <-; left; reflexivity|right; auto].
Qed.
Lemma in_map_remove a b (c : nat) m : In (b, c) (map_remove N.eqb a m) -> In (b, c) m /\ b <> a.
Proof.
  unfold map_remove. rewrite filter_In. cbn [fst]. intros [H E]. split; [exact H|]. intros ->. rewrite N.eqb_refl in E. discriminate.
Qed.
Lemma in_map_insert a b (c d : nat) m : In (b, c) (map_insert N.eqb a d m) -> (b = a /\ c = d) \/ (In (b, c) m /\ b <> a).
Proof. cbn. intros [[= <- <-]|H]; [left; split; reflexivity|right; apply in_map_remove; exact H]. Qed.

Lemma queued_set l x x' s s' : nth_error (u_lsts s) l = Some x -> u_lsts s' = set_nth l x' (u_lsts s) ->
  exists q1 q2, queued s = q1 ++ l_queue x ++ q2 /\ queued s' = q1 ++ l_queue x' ++ q2.
Proof.
  intros H E. destruct (set_nth_split l x' x (u_lsts s) H) as (l1 & l2 & E1 & E2).
  exists (flat_map l_queue l1), (flat_map l_queue l2). unfold queued. rewrite E, E2, E1, !flat_map_app. cbn [flat_map]. split; reflexivity.
Qed.
Lemma waiting_false s c : waiting s c = false -> forall a, ~ In (c, a) (queued s).
Proof.
  intros W a H. unfold waiting in W. apply in_flat_map in H as (x & Hx & Hq).
  assert (T : existsb (fun x => existsb (fun e => fst e =? c) (l_queue x)) (u_lsts s) = true).
  { apply existsb_exists. exists x. split; [exact Hx|]. apply existsb_exists. exists (c, a). split; [exact Hq|]. apply Nat.eqb_refl. }
  congruence.
Qed.
Lemma existsb_queue c (q : list (nat * N)) : existsb (fun e => fst e =? c) q = true -> exists a, In (c, a) q.
Proof. intros H. apply existsb_exists in H as ((k & a) & Hi & E). apply Nat.eqb_eq in E. cbn in E. subst. exists a. exact Hi. Qed.
