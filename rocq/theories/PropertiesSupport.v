(** Property theorems C64-C66: shared maps, response channels, macros. *)
From Coq Require Import List NArith ZArith Bool.
From Verif Require Import BytesModel UniverseModel WireSpec SupportModel SupportSpec SupportTheorems.
Import ListNotations.
Open Scope N_scope.

(** C64.  Whatever the clones of a shared map do, in whatever order their calls take the lock, each
    call returns what the calls before it left under its key. *)
Theorem C64_shared_map : forall (K V : Type) (eqb : K -> K -> bool) (eq_dec : forall a b : K, {a = b} + {a <> b}) (clone : V -> option V),
  (forall a b, eqb a b = true <-> a = b) -> (forall v, clone v = Some v) ->
  forall ops i o, nth_error ops i = Some o ->
  nth_error (fst (sm_run eqb clone sm_new ops)) i = Some (SmOk (entry eq_dec (key_of o) (rev (firstn i ops)))).
Proof. exact @shared_map_lawful. Qed.
Print Assumptions C64_shared_map.
(** If copying a value can panic: from the first such copy on every call on every clone panics,
    and no other call does. *)
Theorem C64_poisoning : forall (K V : Type) (eqb : K -> K -> bool) (eq_dec : forall a b : K, {a = b} + {a <> b}) (clone : V -> option V),
  ((forall a b, eqb a b = true <-> a = b) ->
  forall ops i o, nth_error ops i = Some o ->
  (nth_error (fst (sm_run eqb clone sm_new ops)) i = Some SmPanic <-> exists j, j <= i /\ panicking_get eq_dec clone ops j) /\
  ((forall j, j <= i -> ~ panicking_get eq_dec clone ops j) ->
   nth_error (fst (sm_run eqb clone sm_new ops)) i = Some (SmOk
     (match o with
      | SmGet k => match entry eq_dec k (rev (firstn i ops)) with Some v => clone v | None => None end
      | _ => entry eq_dec (key_of o) (rev (firstn i ops))
      end))))%nat.
Proof. exact @shared_map_poisoning. Qed.
Print Assumptions C64_poisoning.
Example C64_example :
  sm_run N.eqb (fun v : N => if v =? 9 then None else Some v) sm_new
    [SmInsert 1 5; SmGet 1; SmInsert 1 6; SmGet 2; SmRemove 1; SmGet 1; SmInsert 3 9; SmGet 3; SmInsert 4 4]
  = ([SmOk None; SmOk (Some 5); SmOk (Some 5); SmOk None; SmOk (Some 6); SmOk None; SmOk None; SmPanic; SmPanic],
     mkSm true [(3, 9)]).
Proof. vm_compute. reflexivity. Qed.
Example C64_example_hyp : (forall a b, N.eqb a b = true <-> a = b) /\ (forall v : N, Some v = Some v) /\
  nth_error [SmInsert 1 5; SmGet 1] 1 = Some (SmGet 1 : sm_op N N) /\
  panicking_get N.eq_dec (fun v : N => if v =? 9 then None else Some v) [SmInsert 3 9; SmGet 3] 1.
Proof.
  split; [exact N.eqb_eq|]. split; [reflexivity|]. split; [reflexivity|]. exists 3, 9. repeat split.
Qed.

(** C65.  [get] returns exactly the response that was sent, [None] exactly if the sender was dropped
    without sending, and waits exactly as long as neither has happened. *)
Theorem C65_response : forall (R : Type) es es' (s : oneshot R) rs,
  (o_run response_channels (es ++ OGet :: es') = Some (s, rs) ->
  (forall r, nth_error rs (length es) = Some (Some (Some r)) <-> In (OSend r) es) /\
  (nth_error rs (length es) = Some (Some None) <-> In ODropSender es) /\
  (nth_error rs (length es) = Some None <-> (forall r, ~ In (OSend r) es) /\ ~ In ODropSender es))%nat.
Proof. exact @response_got. Qed.
Print Assumptions C65_response.
(** A response that nobody can take any more is not kept. *)
Theorem C65_held : forall (R : Type) es (s : oneshot R) rs, o_run response_channels es = Some (s, rs) ->
  forall r, o_value s = Some r <-> In (OSend r) es /\ o_receiver s = true.
Proof. exact @response_held. Qed.
Print Assumptions C65_held.
Example C65_example :
  o_run response_channels [OGet; OSend 5; OGet] = Some (mkO false false None, [None; None; Some (Some 5)]) /\
  o_run (@response_channels N) [ODropSender; OGet] = Some (mkO false false None, [None; Some None]) /\
  o_run response_channels [ODropReceiver; OSend 5; OGet] = None.
Proof. vm_compute. repeat split. Qed.

(** C66.  [size_hint!] is the number of bytes [serialize_into!] appends and returns, and
    [deserialize_from!] reads back what it wrote, with and without a length field. *)
Theorem C66_sizes : forall ts lf v b n b',
  valid (TTuple ts) v = true ->
  (serialize_into ts v b = WOk n b' -> size_hint_of ts v = n) /\
  (serialize_into_len lf ts v b = WOk n b' -> size_hint_len_of lf ts v = n).
Proof. exact @macro_size. Qed.
Print Assumptions C66_sizes.
Theorem C66_round_trip : forall ts v data room n b' rest,
  delimited (TTuple ts) = true -> valid (TTuple ts) v = true -> nul_free (TTuple ts) v = true ->
  serialize_into ts v (mkW data room) = WOk n b' ->
  exists bs, w_data b' = data ++ bs /\ len bs = n /\ deserialize_from ts (bs ++ rest) = DOk (untuple ts v) rest.
Proof. exact @macro_round_trip. Qed.
Print Assumptions C66_round_trip.
Theorem C66_len_round_trip : forall lf ts v data room n b' rest,
  framed (TTuple ts) = true -> valid (TTuple ts) v = true -> nul_free (TTuple ts) v = true ->
  serialize_into_len lf ts v (mkW data room) = WOk n b' ->
  exists bs, w_data b' = data ++ bs /\ len bs = n /\ deserialize_from_len lf ts (bs ++ rest) = DOk (untuple ts v) rest.
Proof. exact @macro_len_round_trip. Qed.
Print Assumptions C66_len_round_trip.
Example C66_example :
  serialize_into [TUInt B1; TUInt B1] (1, (2, tt)) (mkW [] 9) = WOk 2 (mkW [1; 2] 7) /\
  serialize_into_len LF8 [TUInt B1; TUInt B1] (3, (4, tt)) (mkW [1; 2] 7) = WOk 3 (mkW [1; 2; 2; 3; 4] 4) /\
  size_hint_of [TUInt B1; TUInt B1] (1, (2, tt)) + size_hint_len_of LF32 [TUInt B1; TUInt B1] (3, (4, tt)) = 8 /\
  deserialize_from [TUInt B1; TUInt B1] [1; 2; 2; 3; 4] = DOk (1, (2, tt)) [2; 3; 4] /\
  deserialize_from_len LF8 [TUInt B1; TUInt B1] [2; 3; 4] = DOk (3, (4, tt)) [] /\
  deserialize_from [TUInt B2] [1; 2; 3] = DOk 258 [3].
Proof. vm_compute. repeat split. Qed.
Example C66_example_hyp : delimited (TTuple [TUInt B1; TUInt B1]) = true /\ framed (TTuple [TUInt B1; TBytes]) = true /\
  valid (TTuple [TUInt B1; TUInt B1]) (1, (2, tt)) = true /\ nul_free (TTuple [TUInt B1; TUInt B1]) (1, (2, tt)) = true.
Proof. vm_compute. repeat split. Qed.
