(** Model of rsomeip-bytes/src/macros.rs (M), rsomeip/src/support/collections.rs (C) and
    rsomeip/src/support/sync.rs (Y).  Definitions only. *)
From Coq Require Import List NArith ZArith Bool.
From Verif Require Import BytesModel UniverseModel MapModel.
Import ListNotations.
Open Scope N_scope.

(** M 31-42: [serialize_into!], without and with a [length]. *)
Definition serialize_into (ts : list ty) (v : value (TTuple ts)) (b : wbuf) : wres :=
  serialize (ser (TTuple ts)) v b.
Definition serialize_into_len (lf : length_field) (ts : list ty) (v : value (TTuple ts)) (b : wbuf) : wres :=
  serialize_len (ser (TTuple ts)) lf v b.

(** M 59-78: [size_hint!]: a running sum over the members. *)
Fixpoint size_hint_sum (ts : list ty) (size : N) : value (TTuple ts) -> N :=
  match ts return value (TTuple ts) -> N with
  | [] => fun _ => size
  | t :: ts' => fun v => size_hint_sum ts' (size + size_hint (ser t) (fst v)) (snd v)
  end.
Definition size_hint_of (ts : list ty) (v : value (TTuple ts)) : N := size_hint_sum ts 0 v.
Definition size_hint_len_of (lf : length_field) (ts : list ty) (v : value (TTuple ts)) : N :=
  size_hint_sum ts (0 + match lf with
                        | LF8 => size_hint (ser (TUInt B1)) 0
                        | LF16 => size_hint (ser (TUInt B2)) 0
                        | LF32 => size_hint (ser (TUInt B4)) 0
                        end) v.

(** M 106-117: [deserialize_from!].  [($repr),+] around a single type is a parenthesised type, not
    a tuple, so [from_ty] is that type then. *)
Definition from_ty (ts : list ty) : ty := match ts with [t] => t | _ => TTuple ts end.
Definition deserialize_from (ts : list ty) : Deserialize (value (from_ty ts)) := de (from_ty ts).
Definition deserialize_from_len (lf : length_field) (ts : list ty) : Deserialize (value (from_ty ts)) :=
  deserialize_len (de (from_ty ts)) lf.

(** C 31-34: a [SharedMap]: the mutex (poisoned or not) and the map behind it.  All clones of one
    map share this state.  [clone]: [V::clone], [None] if it panics.  Keys are compared and hashed
    without panicking. *)
Section SharedMap.
Context {K V : Type} (eqb : K -> K -> bool) (clone : V -> option V).
Record smap := mkSm { sm_poisoned : bool; sm_map : list (K * V) }.

(** C 52-56, 137-139: [new], [default]. *)
Definition sm_new : smap := mkSm false [].

Inductive sm_op := SmInsert (k : K) (v : V) | SmGet (k : K) | SmRemove (k : K).
Inductive sm_res := SmOk (v : option V) | SmPanic.

(** C 75-80, 98-104, 121-127: [insert], [get], [remove].  [lock().expect(..)] panics on a poisoned
    mutex; a panic of [cloned] happens while the guard is held and poisons it. *)
Definition sm_apply (s : smap) (o : sm_op) : sm_res * smap :=
  if sm_poisoned s then (SmPanic, s)
  else
    match o with
    | SmInsert k v => (SmOk (map_get eqb k (sm_map s)), mkSm false (map_insert eqb k v (sm_map s)))
    | SmGet k =>
        match map_get eqb k (sm_map s) with
        | None => (SmOk None, s)
        | Some v =>
            match clone v with
            | Some v' => (SmOk (Some v'), s)
            | None => (SmPanic, mkSm true (sm_map s))
            end
        end
    | SmRemove k => (SmOk (map_get eqb k (sm_map s)), mkSm false (map_remove eqb k (sm_map s)))
    end.

(** The calls of all clones, in the order in which they take the lock, with what they return. *)
Fixpoint sm_run (s : smap) (ops : list sm_op) : list sm_res * smap :=
  match ops with
  | [] => ([], s)
  | o :: ops' => let (r, s1) := sm_apply s o in let (rs, s2) := sm_run s1 ops' in (r :: rs, s2)
  end.
End SharedMap.
Arguments smap : clear implicits. Arguments sm_op : clear implicits. Arguments sm_res : clear implicits.

(** Y 34-41: [response_channels], a oneshot channel: the sender, the receiver, the value in between. *)
Section Response.
Context {R : Type}.
Record oneshot := mkO { o_sender : bool; o_receiver : bool; o_value : option R }.
Definition response_channels : oneshot := mkO true true None.

(** Y 90-103: [send], [ok] and [err] consume the sender; the value is lost if the receiver is gone.
    Dropping the sender.  Y 66-68: [get], polled; [Some (Some r)]: the response, [Some None]: the
    sender is gone, [None]: pending.  Dropping the receiver (or the future of [get]). *)
Inductive o_event := OSend (r : R) | ODropSender | OGet | ODropReceiver.
Definition o_step (s : oneshot) (e : o_event) : option (oneshot * option (option R)) :=
  match e with
  | OSend r =>
      if o_sender s then Some (mkO false (o_receiver s) (if o_receiver s then Some r else None), None) else None
  | ODropSender => if o_sender s then Some (mkO false (o_receiver s) (o_value s), None) else None
  | OGet =>
      if o_receiver s then
        match o_value s with
        | Some r => Some (mkO (o_sender s) false None, Some (Some r))
        | None => if o_sender s then Some (s, None) else Some (mkO false false None, Some None)
        end
      else None
  | ODropReceiver => if o_receiver s then Some (mkO (o_sender s) false None, None) else None
  end.
Fixpoint o_run (s : oneshot) (es : list o_event) : option (oneshot * list (option (option R))) :=
  match es with
  | [] => Some (s, [])
  | e :: es' =>
      match o_step s e with
      | Some (s1, r) => match o_run s1 es' with Some (s2, rs) => Some (s2, r :: rs) | None => None end
      | None => None
      end
  end.
End Response.
Arguments oneshot : clear implicits. Arguments o_event : clear implicits.
