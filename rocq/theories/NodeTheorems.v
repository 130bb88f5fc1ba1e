(** Theorems about an endpoint over UDP, and about several of them on a network. *)
From Coq Require Import List NArith Bool PeanoNat Lia Permutation Sorted.
From Verif Require Import BytesModel WireSpec UniverseModel SomeipModel SomeipSpec SomeipTheorems MapModel EndpointProofs
  RuntimeModel RuntimeSpec RuntimeProofs RuntimeTheorems RuntimePacketTheorems RuntimeSendTheorems RuntimeAddrTheorems
  NodeModel NodeSpec NodeProofs.
From Verif Require UdpModel UdpSpec UdpProofs UdpInv UdpTheorems.
Import ListNotations.
Open Scope nat_scope.

(** ** Sublists *)
Lemma among_refl {A} (l : list A) : among l l.
Proof. exists []. rewrite app_nil_r. apply Permutation_refl. Qed.
Lemma among_trans {A} (l m n : list A) : among l m -> among m n -> among l n.
Proof.
  intros [r P] [q Q]. exists (r ++ q). rewrite app_assoc. eapply Permutation_trans; [|exact Q].
  apply Permutation_app_tail. exact P.
Qed.
Lemma among_perm {A} (l l' m : list A) : Permutation l l' -> among l' m -> among l m.
Proof.
  intros P [r Q]. exists r. eapply Permutation_trans; [|exact Q]. apply Permutation_app_tail. exact P.
Qed.
Lemma among_perm_r {A} (l m m' : list A) : among l m -> Permutation m m' -> among l m'.
Proof. intros [r Q] P. exists r. eapply Permutation_trans; eassumption. Qed.
Lemma among_flat_map {A B} (f : A -> list B) l m : among l m -> among (flat_map f l) (flat_map f m).
Proof.
  intros [r P]. exists (flat_map f r). rewrite <- flat_map_app. apply Permutation_flat_map. exact P.
Qed.
Lemma among_map {A B} (f : A -> B) l m : among l m -> among (map f l) (map f m).
Proof. intros [r P]. exists (map f r). rewrite <- map_app. apply Permutation_map. exact P. Qed.
Lemma among_in {A} (l m : list A) x : among l m -> In x l -> In x m.
Proof. intros [r P] I. eapply Permutation_in; [exact P|]. apply in_or_app. left. exact I. Qed.
Lemma among_app {A} (l l' m m' : list A) : among l m -> among l' m' -> among (l ++ l') (m ++ m').
Proof.
  intros [r P] [q Q]. exists (r ++ q).
  eapply Permutation_trans; [|apply Permutation_app; [exact P|exact Q]].
  rewrite <- !app_assoc. apply Permutation_app_head. rewrite !app_assoc. apply Permutation_app_tail. apply Permutation_app_comm.
Qed.
Lemma nodup_among {A} (l : list A) : forall m, NoDup l -> incl l m -> among l m.
Proof.
  induction l as [|x l IH]; intros m D I; [exists m; apply Permutation_refl|].
  inversion D as [|y k X D']; subst.
  destruct (in_split x m (I x (or_introl eq_refl))) as (m1 & m2 & ->).
  destruct (IH (m1 ++ m2) D') as [r P].
  - intros z Z. assert (K := I z (or_intror Z)). apply in_app_or in K. apply in_or_app.
    destruct K as [K|[->|K]]; [left; exact K|contradiction|right; exact K].
  - exists r. cbn. apply Permutation_cons_app. exact P.
Qed.

Lemma subseq_nil {A} (l : list A) : subseq [] l.
Proof. induction l; [constructor|apply sub_skip; assumption]. Qed.
Lemma subseq_refl {A} (l : list A) : subseq l l.
Proof. induction l; [constructor|apply sub_take; assumption]. Qed.
Lemma subseq_trans {A} (m n : list A) : subseq m n -> forall l, subseq l m -> subseq l n.
Proof.
  induction 1 as [|x m n H IH|x m n H IH]; intros l L.
  - exact L.
  - apply sub_skip, IH, L.
  - inversion L; subst; [apply sub_skip, IH; assumption|apply sub_take, IH; assumption].
Qed.
Lemma subseq_app {A} (l m l' m' : list A) : subseq l m -> subseq l' m' -> subseq (l ++ l') (m ++ m').
Proof. intros H K. induction H; cbn; [exact K|apply sub_skip; assumption|apply sub_take; assumption]. Qed.
Lemma subseq_flat_map {A B} (f : A -> list B) l m : subseq l m -> subseq (flat_map f l) (flat_map f m).
Proof.
  induction 1; cbn; [constructor| |apply subseq_app; [apply subseq_refl|assumption]].
  rewrite <- (app_nil_l (flat_map f l)). apply subseq_app; [apply subseq_nil|assumption].
Qed.
Lemma subseq_map {A B} (f : A -> B) l m : subseq l m -> subseq (map f l) (map f m).
Proof. induction 1; cbn; constructor; assumption. Qed.
Lemma subseq_filter {A} (p : A -> bool) l m : subseq l m -> Forall (fun x => p x = true) l -> subseq l (filter p m).
Proof.
  induction 1 as [|x l m H IH|x l m H IH]; cbn; intros F.
  - constructor.
  - destruct (p x); [apply sub_skip|]; exact (IH F).
  - inversion F; subst. match goal with K : p x = true |- _ => rewrite K end. apply sub_take, IH. assumption.
Qed.
Lemma sorted_subseq {A} (l : list A) : forall k ix vs, StronglySorted lt ix -> Forall (le k) ix ->
  Forall2 (fun i v => nth_error l (i - k) = Some v) ix vs -> subseq vs l.
Proof.
  induction l as [|y l IH]; intros k ix vs SS G F.
  - destruct F as [|i v ix vs E]; [constructor|]. destruct (i - k); discriminate E.
  - destruct F as [|i v ix vs E F]; [apply subseq_nil|].
    inversion SS as [|a b S' GT]; subst. inversion G as [|a b G1 G2]; subst.
    assert (STEP : forall ix vs, Forall (lt k) ix -> Forall2 (fun i v => nth_error (y :: l) (i - k) = Some v) ix vs ->
      Forall (le (S k)) ix /\ Forall2 (fun i v => nth_error l (i - S k) = Some v) ix vs).
    { clear. intros ix vs B F. induction F as [|i v ix vs E F IH]; [split; constructor|].
      inversion B as [|a b B1 B2]; subst. destruct (IH B2) as [J1 J2]. split; constructor; try assumption.
      replace (i - k) with (S (i - S k)) in E by lia. exact E. }
    destruct (Nat.eq_dec i k) as [->|N].
    + rewrite Nat.sub_diag in E. injection E as <-. apply sub_take.
      destruct (STEP ix vs GT F) as [J1 J2]. exact (IH (S k) ix vs S' J1 J2).
    + apply sub_skip.
      assert (B : Forall (lt k) (i :: ix)) by (constructor; [lia|]; eapply Forall_impl; [|exact GT]; intros z Z; cbn in Z; lia).
      destruct (STEP (i :: ix) (v :: vs) B (Forall2_cons _ _ E F)) as [J1 J2]. exact (IH (S k) _ _ SS J1 J2).
Qed.

Lemma flat_map_ext_in {A B} (f g : A -> list B) l : (forall x, In x l -> f x = g x) -> flat_map f l = flat_map g l.
Proof. induction l as [|x l IH]; intros H; [reflexivity|]. cbn. rewrite H by (left; reflexivity). f_equal. apply IH. intros y Y. apply H. right. exact Y. Qed.
Lemma flat_map_of_map {A B C} (f : B -> list C) (g : A -> B) l : flat_map f (map g l) = flat_map (fun x => f (g x)) l.
Proof. induction l as [|x l IH]; [reflexivity|]. cbn. rewrite IH. reflexivity. Qed.

(** Sorting a list by labels. *)
Lemma group {A B} (g : nat -> A -> B) n : forall l : list (nat * A), Forall (fun p => fst p < n) l ->
  Permutation (flat_map (fun c => map (g c) (map snd (filter (fun p => fst p =? c) l))) (seq 0 n)) (map (fun p => g (fst p) (snd p)) l).
Proof.
  induction l as [|[c x] l IH]; intros F.
  - cbn. induction (seq 0 n); [constructor|exact IHl].
  - inversion F as [|p q L F']; subst. cbn [fst snd map] in *. specialize (IH F').
    assert (E : seq 0 n = seq 0 c ++ c :: seq (S c) (n - S c)).
    { replace n with (c + S (n - S c)) at 1 by lia. rewrite seq_app. reflexivity. }
    rewrite E in *. rewrite flat_map_app in *. cbn [flat_map filter fst] in *. rewrite Nat.eqb_refl. cbn [map snd].
    assert (K : forall m, (forall d, In d m -> d <> c) ->
      flat_map (fun c0 => map (g c0) (map snd (if c =? c0 then (c, x) :: filter (fun p => fst p =? c0) l else filter (fun p => fst p =? c0) l))) m =
      flat_map (fun c0 => map (g c0) (map snd (filter (fun p => fst p =? c0) l))) m).
    { induction m as [|d m IHm]; intros Q; [reflexivity|]. cbn [flat_map]. rewrite IHm by (intros z Z; apply Q; right; exact Z). f_equal.
      destruct (Nat.eqb_spec c d) as [->|]; [|reflexivity]. exfalso. exact (Q d (or_introl eq_refl) eq_refl). }
    rewrite 2 K by (intros d D; apply in_seq in D; lia). cbn [app]. symmetry. apply Permutation_cons_app. symmetry. exact IH.
Qed.

Section Locks.
Context (bk : iid -> N) (cbk : N -> N).
Local Notation step := (step bk cbk).
Local Notation history := (history bk cbk true).
Local Notation node_step := (node_step bk cbk).
Local Notation nhistory := (nhistory bk cbk).

(** ** Peers *)
Lemma peer_app c t1 t2 : peer_of c (t1 ++ t2) = match peer_of c t1 with Some a => Some a | None => peer_of c t2 end.
Proof. induction t1 as [|[e o] t1 IH]; [reflexivity|]. destruct o; cbn; rewrite ?IH; try reflexivity. destruct (c0 =? c); reflexivity. Qed.
Lemma peer_is tr s : history tr s -> forall c, peer_of c tr = nth_error (map c_addr (r_conns s)) c.
Proof.
  induction 1 as [|tr s e s' o H IH ST]; intros c; [destruct c; reflexivity|].
  rewrite peer_app, IH. pose proof (step_addrs _ _ _ _ _ _ ST) as ->.
  destruct (nth_error (map c_addr (r_conns s)) c) eqn:E.
  - rewrite nth_error_app1 by (apply nth_lt in E; exact E). symmetry. exact E.
  - apply nth_error_None in E. rewrite nth_error_app2 by exact E. rewrite map_length in *.
    destruct o; cbn [peer_of spawned]; try (destruct (c - length (r_conns s)); reflexivity).
    apply spawn_event in ST. destruct ST as [-> _]. destruct (Nat.eqb_spec (length (r_conns s)) c) as [<-|N].
    + rewrite Nat.sub_diag. reflexivity.
    + destruct (c - length (r_conns s)) as [|k] eqn:K; [lia|]. destruct k; reflexivity.
Qed.
Lemma peer_opened c a tr : peer_of c tr = Some a -> opened c a tr.
Proof.
  induction tr as [|[e o] tr IH]; [discriminate|]. cbn. intros H.
  assert (K : peer_of c tr = Some a -> opened c a ((e, o) :: tr)) by (intros J; destruct (IH J) as [f F]; exists f; right; exact F).
  destruct o; auto. destruct (Nat.eqb_spec c0 c) as [->|]; [|auto]. injection H as ->. exists e. left. reflexivity.
Qed.
Lemma peer_some c a tr : opened c a tr -> peer_of c tr <> None.
Proof.
  intros [e I]. induction tr as [|[f o] tr IH]; [destruct I|]. destruct I as [I|I].
  - injection I as -> ->. cbn. rewrite Nat.eqb_refl. discriminate.
  - specialize (IH I). destruct o; cbn; try exact IH. destruct (c0 =? c); [discriminate|exact IH].
Qed.
Lemma opened_peer tr s c a : history tr s -> opened c a tr -> peer_of c tr = Some a.
Proof.
  intros H O. destruct (peer_of c tr) as [b|] eqn:P; [|exfalso; exact (peer_some _ _ _ O P)].
  f_equal. eapply one_address; [exact H| |exact O]. apply peer_opened. exact P.
Qed.

(** ** What users read was in datagrams *)
Definition peer (s : node) (c : nat) : N := nth c (map c_addr (r_conns (n_rt s))) 0%N.
Definition taken_by (s : node) (tr : list entry) (c : nat) : list UdpModel.packet := data_on (nth c (n_chan s) 0) (socket_trace tr).

Lemma opened_is_peer tr s c a : nhistory tr s -> opened c a (runtime_trace tr) ->
  c < length (r_conns (n_rt s)) /\ peer s c = a.
Proof.
  intros H O. pose proof (runtime_history _ _ _ _ H) as R. apply (opened_peer _ _ _ _ R) in O. rewrite (peer_is _ _ R) in O.
  split; [apply nth_lt in O; rewrite map_length in O; exact O|]. unfold peer. eapply nth_error_nth. exact O.
Qed.
Lemma conn_chan tr s c : nhistory tr s -> c < length (r_conns (n_rt s)) ->
  nth_error (n_chan s) c = Some (nth c (n_chan s) 0) /\
  In (nth c (n_chan s) 0, peer s c) (UdpSpec.opened (socket_trace tr)) /\
  decoded c (runtime_trace tr) = flat_map packet_messages (map UdpModel.p_data (taken_by s tr c)).
Proof.
  intros H L. destruct (opens _ _ _ _ H) as [E _]. rewrite <- E in L.
  assert (C : nth_error (n_chan s) c = Some (nth c (n_chan s) 0)) by (apply nth_error_nth'; exact L).
  split; [exact C|]. destruct (nth_error (r_conns (n_rt s)) c) as [x|] eqn:X; [|apply nth_error_None in X; lia].
  assert (P : peer s c = c_addr x) by (unfold peer; eapply nth_error_nth; apply map_nth_error; exact X).
  split; [rewrite P; eapply chan_opened; eassumption|].
  destruct (reading _ _ _ _ H) as (_ & _ & R). rewrite decoded_packets, (R _ _ C). reflexivity.
Qed.

Lemma all_got_in it tr : In it (all_got tr) -> exists e, In (e, OMsg it) tr.
Proof.
  unfold all_got. rewrite in_flat_map. intros ([e o] & I & K). destruct o; try contradiction. destruct K as [<-|[]]. eauto.
Qed.
Lemma msg_event tr s e it : history tr s -> In (e, OMsg it) tr -> (exists n, e = ERecvFrom n) \/ (exists n, e = EProxyRecv n).
Proof.
  induction 1 as [|tr s ev s' o H IH ST]; [contradiction|]. intros I. apply in_snoc in I. destruct I as [I|I]; [auto|].
  injection I as <- <-. destruct e; cbn in ST; unfold step_ep, step_take, step_route, step_stub, push_cmd in ST; cases_in ST; try discriminate; eauto.
Qed.
Lemma got_facts tr s it : history tr s -> In it (all_got tr) ->
  nth_error (decoded (it_conn it) tr) (it_no it) = Some (it_msg it) /\ opened (it_conn it) (it_addr it) tr.
Proof.
  intros H I. apply all_got_in in I. destruct I as [e I].
  destruct (msg_event _ _ _ _ H I) as [[n ->]|[n ->]].
  - destruct (receiver_created _ _ _ _ _ n it H) as [K _]. destruct (K I) as [id S].
    destruct (stub_routing _ _ _ _ _ _ _ _ H S I) as (_ & A & B). auto.
  - destruct (receiver_created _ _ _ _ _ n it H) as [_ K]. destruct (K I) as (id & a & S).
    destruct (proxy_routing _ _ _ _ _ _ _ _ _ H S I) as (_ & -> & A & B). auto.
Qed.

(** Every datagram handed to a connection is one that arrived, each at most once. *)
Lemma packets_among tr s : nhistory tr s ->
  among (flat_map (fun c => map (fun p => (peer s c, UdpModel.p_data p)) (taken_by s tr c)) (seq 0 (length (r_conns (n_rt s)))))
        (datagrams tr).
Proof.
  intros H. pose proof (socket_history _ _ _ _ H) as U.
  set (n := length (r_conns (n_rt s))). set (get := fun k => match nth_error (datagrams tr) k with Some v => [v] | None => [] end).
  assert (V : forall c, c < n -> map (fun p => (peer s c, UdpModel.p_data p)) (taken_by s tr c) = flat_map get (map UdpModel.p_no (taken_by s tr c))).
  { intros c L. destruct (conn_chan _ _ _ H L) as (_ & O & _). destruct (UdpTheorems.only_from_peer _ _ _ _ U O) as [F _].
    fold (data_on (nth c (n_chan s) 0) (socket_trace tr)) in F. fold (taken_by s tr c) in F. induction F as [|p ps E F IH]; [reflexivity|].
    cbn [map flat_map]. rewrite <- IH. unfold get at 1. unfold UdpSpec.arrived in E. unfold datagrams. rewrite E. reflexivity. }
  assert (E : flat_map (fun c => map (fun p => (peer s c, UdpModel.p_data p)) (taken_by s tr c)) (seq 0 n) =
              flat_map get (map UdpModel.p_no (flat_map (taken_by s tr) (seq 0 n)))).
  { assert (B : Forall (fun c => c < n) (seq 0 n)) by (apply Forall_forall; intros c I; apply in_seq in I; lia).
    induction B as [|c m L B IH]; [reflexivity|]. cbn [flat_map]. rewrite map_app, flat_map_app, IH, V by exact L. reflexivity. }
  rewrite E.
  assert (W : flat_map (taken_by s tr) (seq 0 n) = flat_map (fun ch => data_on ch (socket_trace tr)) (n_chan s)).
  { destruct (opens _ _ _ _ H) as [Q _]. fold n in Q. rewrite <- Q. unfold taken_by.
    assert (G : forall (u : list nat) (f : nat -> list UdpModel.packet) k d, flat_map (fun c => f (nth (c - k) u d)) (seq k (length u)) = flat_map f u).
    { induction u as [|x u IH]; intros f k d; [reflexivity|]. cbn [length seq flat_map]. rewrite Nat.sub_diag. cbn [nth]. f_equal.
      rewrite <- (IH f (S k) d). apply flat_map_ext_in. intros c I. apply in_seq in I. replace (c - k) with (S (c - S k)) by lia. reflexivity. }
    rewrite <- (G (n_chan s) (fun ch => data_on ch (socket_trace tr)) 0 0). apply flat_map_ext. intros c. rewrite Nat.sub_0_r. reflexivity. }
  rewrite W.
  assert (D : among (flat_map (fun ch => data_on ch (socket_trace tr)) (n_chan s)) (UdpSpec.delivered (socket_trace tr))).
  { pose proof (chans_distinct _ _ _ _ H) as ND. revert ND. generalize (n_chan s) (socket_trace tr). intros chs t ND.
    induction t as [|[f q] t IH].
    - exists []. rewrite app_nil_r. assert (Z : flat_map (fun ch => data_on ch []) chs = []) by (induction chs; [reflexivity|]; cbn; apply IHchs; inversion ND; assumption).
      rewrite Z. constructor.
    - assert (SAME : (forall ch, In ch chs -> data_on ch ((f, q) :: t) = data_on ch t) -> flat_map (fun ch => data_on ch ((f, q) :: t)) chs = flat_map (fun ch => data_on ch t) chs)
        by (intros K; apply flat_map_ext_in; exact K).
      assert (LESS : among (UdpSpec.delivered t) (UdpSpec.delivered ((f, q) :: t))).
      { destruct q; cbn; try apply among_refl. exists [p]. apply Permutation_sym, Permutation_cons_append. }
      destruct f; try (rewrite SAME by (intros; reflexivity); eapply among_trans; [exact IH|exact LESS]).
      destruct q; try (rewrite SAME by (intros ch _; unfold data_on; cbn; destruct (c =? ch); reflexivity); eapply among_trans; [exact IH|exact LESS]).
      destruct (in_dec Nat.eq_dec c chs) as [I|I].
      + destruct (in_split _ _ I) as (u & v & ->). rewrite flat_map_app in *. cbn [flat_map] in *.
        apply NoDup_remove in ND. destruct ND as [_ ND].
        assert (K : forall w, (forall d, In d w -> d <> c) -> flat_map (fun ch => data_on ch ((UdpModel.ERecv c, UdpModel.OData p) :: t)) w = flat_map (fun ch => data_on ch t) w).
        { intros w Q. apply flat_map_ext_in. intros d Hd. unfold data_on. cbn. destruct (Nat.eqb_spec c d) as [->|]; [|reflexivity]. exfalso. exact (Q d Hd eq_refl). }
        rewrite 2 K by (intros d Hd ->; apply ND; apply in_or_app; tauto).
        replace (data_on c ((UdpModel.ERecv c, UdpModel.OData p) :: t)) with (p :: data_on c t) by (unfold data_on; cbn; rewrite Nat.eqb_refl; reflexivity).
        cbn [UdpSpec.delivered]. eapply among_perm; [apply Permutation_sym, Permutation_middle|].
        destruct IH as [r P]. exists r. cbn. constructor. exact P.
      + rewrite SAME; [eapply among_trans; [exact IH|exact LESS]|]. intros d Hd. unfold data_on. cbn.
        destruct (Nat.eqb_spec c d) as [->|]; [contradiction|reflexivity]. }
  apply (among_map UdpModel.p_no) in D.
  assert (ND : NoDup (map UdpModel.p_no (flat_map (fun ch => data_on ch (socket_trace tr)) (n_chan s)))).
  { destruct D as [r P]. pose proof (Permutation_NoDup (Permutation_sym P) (UdpTheorems.at_most_once _ _ U)) as N. exact (UdpTheorems.nodup_l _ _ N). }
  assert (I : among (map UdpModel.p_no (flat_map (fun ch => data_on ch (socket_trace tr)) (n_chan s))) (seq 0 (length (datagrams tr)))).
  { apply nodup_among; [exact ND|]. intros k K. rewrite <- W in K. apply in_map_iff in K. destruct K as (p & <- & K). apply in_flat_map in K.
    destruct K as (c & C & K). apply in_seq in C. destruct (conn_chan _ _ c H ltac:(lia)) as (_ & O & _).
    destruct (UdpTheorems.only_from_peer _ _ _ _ U O) as [F _]. rewrite Forall_forall in F. specialize (F p K). apply UdpProofs.arrived_lt in F.
    apply in_seq. unfold datagrams. lia. }
  apply (among_flat_map get) in I. eapply among_perm_r; [exact I|].
  assert (Z : forall (l : list (N * list N)) k, flat_map (fun i => match nth_error l (i - k) with Some v => [v] | None => [] end) (seq k (length l)) = l).
  { induction l as [|x l IH]; intros k; [reflexivity|]. cbn [length seq flat_map]. rewrite Nat.sub_diag. cbn [nth_error app]. f_equal.
    rewrite <- (IH (S k)) at 2. apply flat_map_ext_in. intros i Hi. apply in_seq in Hi. replace (i - k) with (S (i - S k)) by lia. reflexivity. }
  rewrite <- (Z (datagrams tr) 0) at 2. unfold get. erewrite flat_map_ext; [apply Permutation_refl|]. intros k. cbn. rewrite Nat.sub_0_r. reflexivity.
Qed.

Lemma only_what_arrived tr s : nhistory tr s -> among (read_by_users tr) (messages_in (datagrams tr)).
Proof.
  intros H. pose proof (runtime_history _ _ _ _ H) as R. set (rtr := runtime_trace tr) in *. set (n := length (r_conns (n_rt s))).
  apply (fun K => among_trans _ _ _ K (among_flat_map _ _ _ (packets_among _ _ H))).
  set (val := fun k : nat * nat => match nth_error (decoded (fst k) rtr) (snd k) with Some m => [(peer s (fst k), m)] | None => [] end).
  assert (E : read_by_users tr = flat_map val (map which (all_got rtr))).
  { unfold read_by_users. fold rtr. assert (F : Forall (fun it => In it (all_got rtr)) (all_got rtr)) by (apply Forall_forall; auto).
    induction F as [|it l I F IH]; [reflexivity|]. cbn [map flat_map]. rewrite <- IH.
    destruct (got_facts _ _ _ R I) as [A B]. destruct (opened_is_peer _ _ _ _ H B) as [_ P]. unfold val at 1, which. cbn [fst snd].
    rewrite A, P. reflexivity. }
  rewrite E.
  assert (I : among (map which (all_got rtr)) (flat_map (fun c => map (pair c) (seq 0 (length (decoded c rtr)))) (seq 0 n))).
  { apply nodup_among; [eapply at_most_once; exact R|]. intros k K. apply in_map_iff in K. destruct K as (it & <- & K).
    destruct (got_facts _ _ _ R K) as [A B]. destruct (opened_is_peer _ _ _ _ H B) as [L _]. apply in_flat_map. exists (it_conn it).
    split; [apply in_seq; fold n in L; lia|]. unfold which. apply in_map. apply in_seq. apply nth_lt in A. lia. }
  apply (among_flat_map val) in I. eapply among_perm_r; [exact I|]. clear I. fold n.
  assert (B : Forall (fun c => c < n) (seq 0 n)) by (apply Forall_forall; intros c J; apply in_seq in J; lia).
  induction B as [|c m L B IH]; [apply Permutation_refl|]. cbn [flat_map]. rewrite !flat_map_app. apply Permutation_app; [|exact IH].
  destruct (conn_chan _ _ _ H L) as (_ & _ & Q).
  assert (Z : flat_map val (map (pair c) (seq 0 (length (decoded c rtr)))) = map (pair (peer s c)) (decoded c rtr)).
  { 
    assert (G : forall (l : list msg) k, flat_map (fun i => match nth_error l (i - k) with Some v => [(peer s c, v)] | None => [] end) (seq k (length l)) = map (pair (peer s c)) l).
    { induction l as [|x l IHl]; intros k; [reflexivity|]. cbn [length seq flat_map map]. rewrite Nat.sub_diag. cbn [nth_error app]. f_equal.
      rewrite <- (IHl (S k)). apply flat_map_ext_in. intros i Hi. apply in_seq in Hi. replace (i - k) with (S (i - S k)) by lia. reflexivity. }
    rewrite flat_map_of_map. rewrite <- (G (decoded c rtr) 0). apply flat_map_ext. intros i. unfold val. cbn [fst snd]. rewrite Nat.sub_0_r. reflexivity. }
  fold rtr in Q. rewrite Z, Q. generalize (taken_by s tr c). intros ps. induction ps as [|p ps IHp]; [apply Permutation_refl|].
  cbn [map flat_map fst snd]. rewrite map_app. apply Permutation_app_head. exact IHp.
Qed.
(** In order, connection by connection. *)
Lemma taken_subseq tr s c a : nhistory tr s -> opened c a (runtime_trace tr) ->
  subseq (map UdpModel.p_data (taken_by s tr c)) (from_peer a (datagrams tr)).
Proof.
  intros H O. destruct (opened_is_peer _ _ _ _ H O) as [L P]. destruct (conn_chan _ _ _ H L) as (_ & C & _).
  destruct (UdpTheorems.only_from_peer _ _ _ _ (socket_history _ _ _ _ H) C) as [F S].
  change (Forall (UdpSpec.arrived (peer s c) (socket_trace tr)) (taken_by s tr c)) in F. change (UdpSpec.in_order (taken_by s tr c)) in S.
  rewrite P in F.
  assert (G : subseq (map (fun p => (a, UdpModel.p_data p)) (taken_by s tr c)) (datagrams tr)).
  { apply (sorted_subseq _ 0 (map UdpModel.p_no (taken_by s tr c))).
    - clear F. induction S as [|p ps S IH B]; [constructor|]. cbn. constructor; [exact IH|]. rewrite Forall_map. exact B.
    - apply Forall_forall. intros. lia.
    - clear S. induction F as [|p ps E F IH]; [constructor|]. cbn [map]. constructor; [|exact IH]. rewrite Nat.sub_0_r. exact E. }
  unfold from_peer. apply (subseq_filter (fun p => N.eqb (fst p) a)) in G.
  - apply (subseq_map snd) in G. rewrite map_map in G. cbn in G. exact G.
  - rewrite Forall_map. apply Forall_forall. intros p _. cbn. apply N.eqb_refl.
Qed.
Lemma items_subseq its tr c : StronglySorted lt (map it_no (from_conn c its)) ->
  (forall it, In it its -> nth_error (decoded (it_conn it) tr) (it_no it) = Some (it_msg it)) ->
  subseq (map it_msg (from_conn c its)) (decoded c tr).
Proof.
  intros S F. apply (sorted_subseq _ 0 (map it_no (from_conn c its))); [exact S|apply Forall_forall; intros; lia|]. clear S.
  induction its as [|it its IH]; [constructor|]. unfold from_conn in *. cbn [filter].
  destruct (Nat.eqb_spec (it_conn it) c) as [E|]; [|apply IH; intros; apply F; right; assumption].
  cbn [map]. constructor; [|apply IH; intros; apply F; right; assumption].
  rewrite Nat.sub_0_r, <- E. apply F. left. reflexivity.
Qed.
Lemma stub_got_all n tr it : In it (stub_got n tr) -> In it (all_got tr).
Proof.
  unfold stub_got, all_got. rewrite 2 in_flat_map. intros ([e o] & I & K). exists (e, o). split; [exact I|].
  destruct e; try contradiction. destruct o; try contradiction. cbn. destruct (n0 =? n); [exact K|contradiction].
Qed.
Lemma proxy_got_all n tr it : In it (proxy_got n tr) -> In it (all_got tr).
Proof.
  unfold proxy_got, all_got. rewrite 2 in_flat_map. intros ([e o] & I & K). exists (e, o). split; [exact I|].
  destruct e; try contradiction. destruct o; try contradiction. cbn. destruct (n0 =? n); [exact K|contradiction].
Qed.
Lemma order_kept tr s n c a : nhistory tr s -> opened c a (runtime_trace tr) ->
  subseq (map it_msg (from_conn c (stub_got n (runtime_trace tr)))) (flat_map packet_messages (from_peer a (datagrams tr))) /\
  subseq (map it_msg (from_conn c (proxy_got n (runtime_trace tr)))) (flat_map packet_messages (from_peer a (datagrams tr))).
Proof.
  intros H O. pose proof (runtime_history _ _ _ _ H) as R. destruct (in_order _ _ _ _ _ n c R) as [S1 S2].
  destruct (opened_is_peer _ _ _ _ H O) as [L _]. destruct (conn_chan _ _ _ H L) as (_ & _ & Q).
  pose proof (taken_subseq _ _ _ _ H O) as T. apply (subseq_flat_map packet_messages) in T. rewrite <- Q in T.
  split; (eapply subseq_trans; [exact T|]); apply items_subseq; try assumption;
    intros it I; eapply got_facts; try exact R; [eapply stub_got_all|eapply proxy_got_all]; exact I.
Qed.

(** ** What is sent *)
Definition outs (tr : list (event * obs)) : list (nat * list N) :=
  flat_map (fun p => match p with (ESocket d _, OSent bs) => [(d, bs)] | _ => [] end) tr.
Definition oks (tr : list (event * obs)) : list (nat * msg) :=
  flat_map (fun p => match snd p with OOk d m => [(d, m)] | _ => [] end) tr.
Lemma outs_sent c tr : map snd (filter (fun p => fst p =? c) (outs tr)) = sent c tr.
Proof.
  induction tr as [|[e o] tr IH]; [reflexivity|]. unfold outs, sent in *. cbn [flat_map]. rewrite filter_app, map_app, IH. f_equal.
  destruct e; try reflexivity. destruct o; try reflexivity. cbn. destruct (c0 =? c); reflexivity.
Qed.
Lemma oks_accepted c tr : map snd (filter (fun p => fst p =? c) (oks tr)) = accepted c tr.
Proof.
  induction tr as [|[e o] tr IH]; [reflexivity|]. unfold oks, accepted in *. cbn [flat_map]. rewrite filter_app, map_app, IH. f_equal.
  destruct o; try reflexivity. cbn. destruct (c0 =? c); reflexivity.
Qed.

Lemma udp_send_out bs os : fst (UdpModel.udp_send bs os) = true -> length bs <= 1400.
Proof. unfold UdpModel.udp_send. destruct (Nat.ltb_spec 1400 (length bs)); cbn; [discriminate|lia]. Qed.

(** The datagrams the system took are the buffers the sockets took, and go to the peers. *)
Lemma chan_peer tr s c k ch x : nhistory tr s -> nth_error (n_chan s) c = Some k -> nth_error (r_conns (n_rt s)) c = Some x ->
  nth_error (UdpModel.u_chans (n_udp s)) k = Some ch -> UdpModel.c_addr ch = c_addr x.
Proof.
  intros H C X K. pose proof (chan_opened _ _ _ _ _ _ _ H C X) as O.
  pose proof (socket_history _ _ _ _ H) as U. apply UdpInv.inv_history in U.
  destruct (UdpProofs.i_opened _ _ U _ _ O) as (ch' & K' & A). congruence.
Qed.
Lemma peer_later s s' x c : nstepped bk cbk s s' x -> c < length (r_conns (n_rt s)) -> peer s' c = peer s c /\ c < length (r_conns (n_rt s')).
Proof.
  intros ST L. apply stepped_runtime in ST. destruct (e_rt x) as [[e o]|]; [|unfold peer; rewrite ST; auto].
  apply step_addrs in ST. unfold peer. rewrite ST. split; [apply app_nth1; rewrite map_length; exact L|].
  rewrite <- (map_length c_addr (r_conns (n_rt s'))), ST, app_length, map_length. lia.
Qed.
Lemma outs_snoc tr e o : outs (tr ++ [(e, o)]) = outs tr ++ match e, o with ESocket d _, OSent bs => [(d, bs)] | _, _ => [] end.
Proof. unfold outs. rewrite flat_map_app. cbn. rewrite app_nil_r. reflexivity. Qed.
Lemma oks_snoc tr e o : oks (tr ++ [(e, o)]) = oks tr ++ match o with OOk d m => [(d, m)] | _ => [] end.
Proof. unfold oks. rewrite flat_map_app. cbn. rewrite app_nil_r. reflexivity. Qed.
Lemma sent_out_snoc tr x : sent_out (tr ++ [x]) = sent_out tr ++ match e_out x with Some p => [p] | None => [] end.
Proof. unfold sent_out. rewrite flat_map_app. cbn. rewrite app_nil_r. reflexivity. Qed.

Lemma sends_sent s e o s' : step s e = Some (s', o) ->
  match e, o with
  | ESocket c ok, OSent bs => ok = true /\ exists x, nth_error (r_conns s) c = Some x /\ c_out x = Some bs
  | ESocket c ok, _ => ok = false
  | _, OOk c m => c < length (r_conns s)
  | _, _ => True
  end.
Proof.
  intros H. destruct e; cbn in H; unfold step_ep, step_take, step_route, step_stub, i_recv, push_cmd in H; cases_in H; injection H as <- <-; try exact I.
  all: try reflexivity; try (split; [reflexivity|eauto]; fail).
  all: match goal with K : nth_error _ _ = Some _ |- _ < _ => exact (nth_lt _ _ _ K) | _ => idtac end.
  all: try (match goal with K : (_, _) = (_, _) |- _ => injection K as <- <- end).
  all: try (match goal with K : nth_error _ _ = Some _ |- _ < _ => exact (nth_lt _ _ _ K) end).
Qed.

Lemma outs_facts tr s : nhistory tr s ->
  sent_out tr = map (fun p => (peer s (fst p), snd p)) (outs (runtime_trace tr)) /\
  Forall (fun p => fst p < length (r_conns (n_rt s)) /\ length (snd p) <= 1400) (outs (runtime_trace tr)) /\
  Forall (fun p => fst p < length (r_conns (n_rt s))) (oks (runtime_trace tr)).
Proof.
  induction 1 as [|tr s e s' x H (E & F & G) ST]; [split; [|split]; [reflexivity|constructor|constructor]|].
  apply node_step_inv in ST. pose proof (fun c L => proj1 (peer_later _ _ _ c ST L)) as P.
  pose proof (fun c L => proj2 (peer_later _ _ _ c ST L)) as B.
  rewrite sent_out_snoc, runtime_snoc, E.
  assert (E' : map (fun p => (peer s (fst p), snd p)) (outs (runtime_trace tr)) = map (fun p => (peer s' (fst p), snd p)) (outs (runtime_trace tr))).
  { apply map_ext_in. intros p I. rewrite Forall_forall in F. destruct (F p I) as [L _]. rewrite P by exact L. reflexivity. }
  assert (F' : Forall (fun p => fst p < length (r_conns (n_rt s')) /\ length (snd p) <= 1400) (outs (runtime_trace tr)))
    by (eapply Forall_impl; [|exact F]; intros p [L1 L2]; split; [apply B|]; assumption).
  assert (G' : Forall (fun p => fst p < length (r_conns (n_rt s'))) (oks (runtime_trace tr)))
    by (eapply Forall_impl; [|exact G]; intros p L; apply B; exact L).
  rewrite E'.
  assert (Q : forall ev o r, step (n_rt s) ev = Some (r, o) -> (forall c ok, ev <> ESocket c ok) ->
    map (fun p => (peer s' (fst p), snd p)) (outs (runtime_trace tr)) ++ [] = map (fun p => (peer s' (fst p), snd p)) (outs (runtime_trace tr ++ [(ev, o)])) /\
    Forall (fun p => fst p < length (r_conns (n_rt s')) /\ length (snd p) <= 1400) (outs (runtime_trace tr ++ [(ev, o)])) /\
    Forall (fun p => fst p < length (r_conns (n_rt s'))) (oks (runtime_trace tr ++ [(ev, o)]))).
  { intros ev o r S NE. apply sends_sent in S. rewrite outs_snoc, oks_snoc.
    replace (match ev with ESocket d _ => match o with OSent bs => [(d, bs)] | _ => [] end | _ => [] end) with (@nil (nat * list N))
      by (destruct ev; try reflexivity; exfalso; exact (NE _ _ eq_refl)).
    rewrite 2 app_nil_r. split; [reflexivity|]. split; [exact F'|]. apply Forall_app. split; [exact G'|].
    destruct o; try constructor; [|constructor]. cbn. apply B. destruct ev; try exact S. exfalso. exact (NE _ _ eq_refl). }
  destruct ST; cbn [e_rt e_out] in *;
    try (eapply Q; [eassumption|]; intros; try discriminate; intros ->; discriminate).
  - rewrite 2 app_nil_r. auto.
  - pose proof (sends_sent _ _ _ _ H4) as S. destruct (fst (UdpModel.udp_send bs os)) eqn:U.
    + destruct o; try discriminate S. destruct S as (_ & x' & X' & O'). assert (x' = x) by congruence. subst x'.
      assert (bs0 = bs) by congruence. subst bs0. rewrite outs_snoc, oks_snoc, map_app, app_nil_r.
      assert (L : c < length (r_conns (n_rt s))) by (exact (nth_lt _ _ _ H0)).
      split; [f_equal; cbn; rewrite P by exact L; rewrite (chan_peer _ _ _ _ _ _ H H1 H0 H3); unfold peer; erewrite nth_error_nth by (apply map_nth_error; exact H0); reflexivity|].
      split; [|exact G']. apply Forall_app. split; [exact F'|]. constructor; [|constructor]. cbn. split; [apply B; exact L|]. eapply udp_send_out. exact U.
    + rewrite outs_snoc, oks_snoc.
      assert (Z : o = ORefused bs).
      { cbn in H4. rewrite H0 in H4. destruct (c_alive x); [|discriminate]. rewrite H2 in H4. congruence. }
      subst o. rewrite 3 app_nil_r. auto.
Qed.

Lemma accepted_is tr s : nhistory tr s -> accepted_for tr = map (fun p => (peer s (fst p), snd p)) (oks (runtime_trace tr)).
Proof.
  intros H. destruct (outs_facts _ _ H) as (_ & _ & G). pose proof (runtime_history _ _ _ _ H) as R. unfold accepted_for.
  assert (K : forall l, Forall (fun p => fst p < length (r_conns (n_rt s))) (oks l) ->
    flat_map (fun p => match snd p with OOk c m => match peer_of c (runtime_trace tr) with Some a => [(a, m)] | None => [] end | _ => [] end) l =
    map (fun p => (peer s (fst p), snd p)) (oks l)); [|apply K; exact G].
  induction l as [|[e o] l IH]; intros F; [reflexivity|]. unfold oks in *. cbn [flat_map] in *. apply Forall_app in F. destruct F as [F1 F2].
  rewrite map_app, <- IH by exact F2. f_equal. destruct o; try reflexivity. cbn in F1. inversion F1; subst. cbn in *.
  rewrite (peer_is _ _ R). unfold peer. destruct (nth_error (map c_addr (r_conns (n_rt s))) c) as [a|] eqn:E.
  - rewrite (nth_error_nth _ _ _ E). reflexivity.
  - apply nth_error_None in E. rewrite map_length in E. lia.
Qed.

Lemma only_what_was_accepted tr s : nhistory tr s ->
  among (sent_out tr) (map (fun p => (fst p, encode (snd p))) (accepted_for tr)) /\
  Forall (fun p => length (snd p) <= 1400) (sent_out tr).
Proof.
  intros H. destruct (outs_facts _ _ H) as (E & F & G). pose proof (runtime_history _ _ _ _ H) as R.
  set (n := length (r_conns (n_rt s))) in *. set (rtr := runtime_trace tr) in *. split.
  - rewrite E, (accepted_is _ _ H). fold rtr.
    assert (F1 : Forall (fun p => fst p < n) (outs rtr)) by (eapply Forall_impl; [|exact F]; intros p K; apply K).
    eapply among_perm; [apply Permutation_sym, (group (fun c bs => (peer s c, bs)) n _ F1)|].
    rewrite map_map. cbn [fst snd]. eapply among_perm_r; [|apply (group (fun c m => (peer s c, encode m)) n _ G)].
    induction (seq 0 n) as [|c l IH]; [apply among_refl|]. cbn [flat_map]. apply among_app; [|exact IH].
    rewrite outs_sent, oks_accepted. destruct (fifo_sends _ _ _ _ _ c R) as (lost & A & _).
    rewrite <- (map_map encode (fun bs => (peer s c, bs))), A, map_app. eexists. apply Permutation_refl.
  - rewrite E. rewrite Forall_map. eapply Forall_impl; [|exact F]. intros p K. apply K.
Qed.

(** ** Networks *)
Local Notation net_history := (net_history bk cbk).
Lemma at_snoc a tr b x : at_node a (tr ++ [(b, x)]) = at_node a tr ++ if N.eqb b a then [x] else [].
Proof. unfold at_node. rewrite flat_map_app. cbn. rewrite app_nil_r. reflexivity. Qed.
Lemma at_history tr w a : net_history tr w -> nhistory (at_node a tr) (w a).
Proof.
  induction 1 as [|tr w b e s x H IH AL ST]; [constructor|]. rewrite at_snoc. unfold net_set.
  destruct (N.eqb_spec b a) as [->|N].
  - rewrite N.eqb_refl. econstructor; eassumption.
  - destruct (N.eqb_spec a b); [congruence|]. rewrite app_nil_r. exact IH.
Qed.
Lemma emitted_is a b d tr : In (a, b, d) (emitted tr) <-> In (b, d) (sent_out (at_node a tr)).
Proof.
  induction tr as [|[c x] tr IH]; [reflexivity|]. cbn. unfold sent_out in *. rewrite flat_map_app, in_app_iff, <- IH.
  destruct (N.eqb_spec c a) as [->|N]; cbn; destruct (e_out x) as [[b' d']|]; cbn; rewrite ?app_nil_r; cbn.
  - split; intros [K|K]; auto; left; [left; congruence|]. destruct K as [K|[]]. congruence.
  - split; [auto|intros [[]|K]; exact K].
  - split; intros [K|K]; auto; [congruence|destruct K].
  - split; [auto|intros [[]|K]; exact K].
Qed.
Lemma emitted_app t1 t2 : emitted (t1 ++ t2) = emitted t1 ++ emitted t2.
Proof. induction t1 as [|[a x] t1 IH]; [reflexivity|]. cbn. rewrite IH. destruct (e_out x) as [[b d]|]; reflexivity. Qed.

Lemma arrival_step s e s' x : node_step s e = Some (s', x) ->
  UdpSpec.arrivals (match e_udp x with Some p => [p] | None => [] end) = match e with NDatagram a d => [(a, firstn 1400 d)] | _ => [] end.
Proof.
  intros H. destruct e; cbn [NodeModel.node_step] in H; unfold socket_step, answer, pair_step in H.
  all: cases_in H; try discriminate; try (injection H as <- <-; reflexivity).
Qed.

Lemma arrivals_emitted tr w b a d : net_history tr w -> In (a, d) (datagrams (at_node b tr)) ->
  exists d0, In (a, b, d0) (emitted tr) /\ d = firstn 1400 d0.
Proof.
  intros H. induction H as [|tr w c e s x H IH AL ST]; [contradiction|]. rewrite at_snoc, emitted_app.
  destruct (N.eqb_spec c b) as [->|N].
  - unfold datagrams in *. rewrite socket_snoc, UdpProofs.arrivals_app, (arrival_step _ _ _ _ ST), in_app_iff. intros [I|I].
    + destruct (IH I) as (d0 & J & E). exists d0. split; [apply in_or_app; left; exact J|exact E].
    + destruct e; try contradiction. destruct I as [I|[]]. injection I as <- <-. exists d0. split; [apply in_or_app; left; exact AL|reflexivity].
  - rewrite app_nil_r. intros I. destruct (IH I) as (d0 & J & E). exists d0. split; [apply in_or_app; left; exact J|exact E].
Qed.

Lemma delivered_was_sent tr w a b m : net_history tr w -> In (a, m) (read_by_users (at_node b tr)) ->
  exists m', In (b, m') (accepted_for (at_node a tr)) /\ In m (packet_messages (encode m')).
Proof.
  intros H I. pose proof (at_history _ _ b H) as B. pose proof (at_history _ _ a H) as A.
  apply (among_in _ _ _ (only_what_arrived _ _ B)) in I. unfold messages_in in I. apply in_flat_map in I.
  destruct I as ([a' d] & D & I). cbn in I. apply in_map_iff in I. destruct I as (m0 & E & I). injection E as -> ->.
  destruct (arrivals_emitted _ _ _ _ _ H D) as (d0 & J & ->). apply emitted_is in J.
  destruct (only_what_was_accepted _ _ A) as [W1 W2].
  rewrite Forall_forall in W2. specialize (W2 _ J). cbn in W2. rewrite firstn_all2 in I by exact W2.
  apply (among_in _ _ _ W1) in J. apply in_map_iff in J. destruct J as ([b' m'] & E & J). cbn in E. injection E as -> <-.
  exists m'. auto.
Qed.
End Locks.
