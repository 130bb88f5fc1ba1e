(** Specification of SOME/IP-TP segmentation: what a list of segments of a body is, and the
    sender and receiver loops around [split] and [join]. *)
From Coq Require Import List NArith Bool.
From Verif Require Import BytesModel WireSpec TpModel.
Import ListNotations.
Open Scope N_scope.

(** A sender: calls [split] with limits of its choice (at least 16) until it returns nothing,
    then sends what is left.  [split_run h segs]: the segments sent, in order. *)
Inductive split_run : tp -> list tp -> Prop :=
| run_last h limit h' : 16 <= limit -> tp_split h limit = (None, h') -> split_run h [h']
| run_more h limit s h' segs : 16 <= limit -> tp_split h limit = (Some s, h') ->
    split_run h' segs -> split_run h (s :: segs).

(** The same with the limits given as a sequence, for at most [fuel] calls. *)
Fixpoint split_loop (fuel : nat) (limits : nat -> N) (h : tp) : option (list tp) :=
  match fuel with
  | O => None
  | S fuel' =>
      match tp_split h (limits O) with
      | (None, h') => Some [h']
      | (Some s, h') =>
          match split_loop fuel' (fun i => limits (S i)) h' with
          | Some segs => Some (s :: segs)
          | None => None
          end
      end
  end.

(** [cut off body segs]: [segs] are the segments of [body] whose first byte is at [16 * off]:
    consecutive pieces, all but the last flagged and a positive multiple of 16 bytes long. *)
Fixpoint cut (off : N) (body : list N) (segs : list tp) : Prop :=
  match segs with
  | [] => False
  | [s] => s = mkTp off false body
  | s :: rest =>
      tp_offset s = off /\ tp_more s = true /\
      (exists units, 0 < units /\ len (tp_body s) = 16 * units /\
         exists body', body = tp_body s ++ body' /\ cut (off + units) body' rest)
  end.

(** A receiver that insists: joins the segments in order, giving up on the first refusal. *)
Fixpoint join_all (h : tp) (segs : list tp) : option tp :=
  match segs with
  | [] => Some h
  | s :: segs' => match tp_join h s with
                  | (None, h') => join_all h' segs'
                  | (Some _, _) => None
                  end
  end.

(** A receiver that ignores refused segments. *)
Definition receive (h : tp) (arrivals : list tp) : tp :=
  fold_left (fun h s => snd (tp_join h s)) arrivals h.

(** [a] occurs in [b] in order, possibly with other elements between. *)
Inductive subseq {A} : list A -> list A -> Prop :=
| sub_nil b : subseq [] b
| sub_take x a b : subseq a b -> subseq (x :: a) (x :: b)
| sub_skip x a b : subseq a b -> subseq a (x :: b).

(** The TP header on the wire: 28 bits of offset, 3 reserved bits, the more-segments bit. *)
Definition tp_form (h : tp) : list N :=
  be 4 (tp_offset h * 16 + (if tp_more h then 1 else 0)) ++ tp_body h.
