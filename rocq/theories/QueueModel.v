(** Model of the channel of endpoint commands: rsomeip/src/endpoint/v1.rs 111-141, 158-180, 233-246,
    367-382 and 531-559 (all lines below are of this file).  Definitions only.

    [RuntimeModel] lets a call reach the endpoint task when its event is taken, and keeps only the
    commands whose callers are gone, which it takes in any order.  Here the calls, the channel with
    its 8 places and the answers are objects.  A step does to the runtime, by [RuntimeModel.step], at
    most two events.

    tokio's [mpsc::Sender::send] waits for a place and puts the command into it; among those who wait
    any may be first.  [oneshot]: an answer stays in its channel until the caller takes it, and is
    dropped with it; [send] on a channel whose receiver was dropped gives the answer back, and the
    task drops it (370, 372, 377). *)
From Coq Require Import List NArith Bool PeanoNat.
From Verif Require Import BytesModel SomeipModel MapModel RuntimeModel.
Import ListNotations.
Open Scope nat_scope.

(** Who sends a command: call [t] of [serve] or [proxy], or the [send_to] of stub [n] (239). *)
Inductive qfrom := FCall (t : nat) | FSend (n : nat).
Definition qfrom_eqb (f g : qfrom) : bool :=
  match f, g with
  | FCall t, FCall u => t =? u
  | FSend n, FSend m => n =? m
  | _, _ => false
  end.

(** 531-559: a [Command] with its [oneshot::Sender].  [e_gone]: the receiver was dropped. *)
Record qentry := mkE { e_from : qfrom; e_cmd : ecmd; e_gone : bool }.
Definition e_lose (e : qentry) : qentry := mkE (e_from e) (e_cmd e) true.

(** Where a call of [serve] (no address, 158-166) or [proxy] (168-180) is. *)
Inductive cstat :=
| CNew                       (* 161, 175: waiting for a place in the channel *)
| CIn                        (* 164, 178: the command is sent *)
| CAnswered (o : obs)        (* the answer is in the [oneshot] *)
| COver.                     (* it returned, or its future was dropped *)
Record qcall := mkK { k_id : iid; k_to : option N; k_stat : cstat }.
Definition k_now (x : cstat) (k : qcall) : qcall := mkK (k_id k) (k_to k) x.

(** The endpoint with its channel.  [q_calls]: every call ever made, referred to by position.
    [q_now]: the command the endpoint task has taken (368).  [q_over]: the task returned. *)
Record qst := mkQ { q_rt : rt; q_calls : list qcall; q_chan : list qentry; q_now : option qentry; q_over : bool }.

(** 111-125. *)
Definition q_init (datagram : bool) : qst := mkQ (rt_init datagram) [] [] None false.

Inductive qevent :=
| QCall (id : iid) (to : option N)      (* [serve] or [proxy] is called *)
| QEnter (f : qfrom)                    (* a command gets a place in the channel *)
| QTake                                 (* the endpoint task takes a command, 368 *)
| QGo (ok : bool)                       (* ... goes on with it; [ok]: the connector succeeds *)
| QReturn (t : nat)                     (* call [t] takes its answer and returns *)
| QDrop (f : qfrom)                     (* the future of a call, or of a [send_to], is dropped *)
| QClose                                (* the last [Endpoint] outside is dropped *)
| QStop                                 (* the endpoint task finds every [Endpoint] dropped and returns *)
| QRun (e : event).                     (* anything else *)

Inductive qobs :=
| QUnit
| QMade (t : nat)
| QEntered (f : qfrom) (c : ecmd)
| QRefused                               (* "endpoint closed" *)
| QTaken (f : qfrom) (c : ecmd)
| QDone (f : qfrom) (c : ecmd) (o : obs) (* the endpoint task finished it, with this answer *)
| QReturned (t : nat) (o : obs).

(** What a step was, what was observed, and what it was for the runtime. *)
Definition qlog := (qevent * qobs * list (event * obs))%type.

Definition ecmd_eqb (x y : ecmd) : bool :=
  match x, y with
  | KConnect a, KConnect b => N.eqb a b
  | KCall id None, KCall id' None => iid_eqb id id'
  | KCall id (Some a), KCall id' (Some b) => iid_eqb id id' && N.eqb a b
  | _, _ => false
  end.
(** Where the runtime keeps command [x], among those whose callers are gone. *)
Fixpoint place (x : ecmd) (q : list ecmd) : nat :=
  match q with
  | [] => 0
  | y :: q' => if ecmd_eqb x y then 0 else S (place x q')
  end.

(** The command of [f] is in the channel, or taken, and [f] waits for its answer. *)
Definition waits (f : qfrom) (e : qentry) : bool := negb (e_gone e) && qfrom_eqb (e_from e) f.
Definition in_channel (f : qfrom) (q : qst) : bool :=
  existsb (waits f) (q_chan q) || match q_now q with Some e => waits f e | None => false end.
Definition lose (f : qfrom) (e : qentry) : qentry := if waits f e then e_lose e else e.

(** Answers that were not taken out of their [oneshot]: nobody has this stub or proxy yet. *)
Definition holds_stub (n : nat) (k : qcall) : bool := match k_stat k with CAnswered (OStub m _) => m =? n | _ => false end.
Definition holds_proxy (n : nat) (k : qcall) : bool := match k_stat k with CAnswered (OProxy m _ _) => m =? n | _ => false end.
Definition stub_out (n : nat) (q : qst) : bool := negb (existsb (holds_stub n) (q_calls q)).
Definition proxy_out (n : nat) (q : qst) : bool := negb (existsb (holds_proxy n) (q_calls q)).

Definition stub_pc (n : nat) (s : rt) : spc := match nth_error (r_stubs s) n with Some t => st_pc t | None => SFree end.
Definition is_free (p : spc) : bool := match p with SFree => true | _ => false end.
Definition is_connecting (p : spc) : bool := match p with SConnect _ _ => true | _ => false end.

(** The events of the runtime that are left to [QRun].  A stub or proxy is used by whoever got it, and
    a stub is dropped only when no [send_to] borrows it. *)
Definition elsewhere (e : event) (q : qst) : bool :=
  match e with
  | EServe _ | EProxy _ _ | EEp _ | EAbandon _ _ | ETake _ _ | EClose | ECancel _ _ => false
  | EStub n _ => negb (is_connecting (stub_pc n (q_rt q)))
  | ESendTo n _ _ | ERecvFrom n => stub_out n q
  | EDropStub n => stub_out n q && is_free (stub_pc n (q_rt q))
  | EProxySend n _ | EProxyRecv n | EDropProxy n => proxy_out n q
  | _ => true
  end.

(** The call of [stub] or [proxy] of the endpoint task returned this (425-443, 482-498). *)
Definition is_answer (o : obs) : bool :=
  match o with OStub _ _ | OProxy _ _ _ | OExists | OError => true | _ => false end.
(** Dropping an answer drops what is in it. *)
Definition drop_answer (o : obs) : option event :=
  match o with OStub n _ => Some (EDropStub n) | OProxy n _ _ => Some (EDropProxy n) | _ => None end.

Definition with_rt (s : rt) (q : qst) : qst := mkQ s (q_calls q) (q_chan q) (q_now q) (q_over q).
Definition with_calls (x : list qcall) (q : qst) : qst := mkQ (q_rt q) x (q_chan q) (q_now q) (q_over q).
Definition with_chan (x : list qentry) (q : qst) : qst := mkQ (q_rt q) (q_calls q) x (q_now q) (q_over q).
Definition with_now (x : option qentry) (q : qst) : qst := mkQ (q_rt q) (q_calls q) (q_chan q) x (q_over q).
Definition with_over (q : qst) : qst := mkQ (q_rt q) (q_calls q) (q_chan q) (q_now q) true.
Definition set_call (t : nat) (x : cstat) (q : qst) : qst := with_calls (upd t (k_now x) (q_calls q)) q.
(** Nobody waits for the answer to the command of [f] any more. *)
Definition unwatch (f : qfrom) (q : qst) : qst :=
  with_chan (map (lose f) (q_chan q)) (with_now (option_map (lose f) (q_now q)) q).

Section Locks.
Context (bk : iid -> N) (cbk : N -> N).

(** One event of the runtime. *)
Definition at_rt (e : event) (q : qst) : option (qst * obs) :=
  match step bk cbk (q_rt q) e with Some (s, o) => Some (with_rt s q, o) | None => None end.

(** What call [t] and the [send_to] of [n] put into the channel (133-141, 158-180). *)
Definition command_of (f : qfrom) (q : qst) : option ecmd :=
  match f with
  | FCall t =>
      match nth_error (q_calls q) t with
      | Some k => match k_stat k with CNew => Some (KCall (k_id k) (k_to k)) | _ => None end
      | None => None
      end
  | FSend n =>
      match nth_error (r_stubs (q_rt q)) n with
      | Some t =>
          match st_alive t, st_pc t with
          | true, SConnect a _ => if in_channel f q then None else Some (KConnect a)
          | _, _ => None
          end
      | None => None
      end
  end.

(** The endpoint task begins with a command of [serve] or [proxy] (371-378). *)
Definition begins (e : qentry) (id : iid) (to : option N) (q : qst) : event :=
  if e_gone e then ETake (place (e_cmd e) (r_left (q_rt q))) true
  else match to with None => EServe id | Some a => EProxy id a end.

Definition qstep (q : qst) (x : qevent) : option (qst * qobs * list (event * obs)) :=
  match x with
  | QCall id to =>
      if r_open (q_rt q) then Some (with_calls (q_calls q ++ [mkK id to CNew]) q, QMade (length (q_calls q)), []) else None
  | QEnter f =>
      match command_of f q with
      | None => None
      | Some c =>
          if q_over q then                                           (* 136-138, 161-163, 175-177 *)
            match f with
            | FCall t => Some (set_call t COver q, QRefused, [])
            | FSend n => match at_rt (EStub n false) q with Some (q', o) => Some (q', QRefused, [(EStub n false, o)]) | None => None end
            end
          else if length (q_chan q) <? 8 then
            let q' := with_chan (q_chan q ++ [mkE f c false]) q in
            Some (match f with FCall t => set_call t CIn q' | FSend _ => q' end, QEntered f c, [])
          else None
      end
  | QTake =>
      match q_over q, q_now q, q_chan q with
      | false, None, e :: rest =>
          let q' := with_now (Some e) (with_chan rest q) in
          match e_cmd e with
          | KConnect _ => Some (q', QTaken (e_from e) (e_cmd e), [])
          | KCall id to =>
              let b := begins e id to q in
              match at_rt b q' with Some (q'', o) => Some (q'', QTaken (e_from e) (e_cmd e), [(b, o)]) | None => None end
          end
      | _, _, _ => None
      end
  | QGo ok =>
      match q_now q with
      | None => None
      | Some e =>
          let idle q := with_now None q in
          match e_cmd e with
          | KConnect _ =>                                            (* 370, 402-413 *)
              match (if e_gone e then Some (ETake (place (e_cmd e) (r_left (q_rt q))) ok)
                     else match e_from e with FSend n => Some (EStub n ok) | FCall _ => None end) with
              | None => None
              | Some b => match at_rt b q with Some (q', o) => Some (idle q', QDone (e_from e) (e_cmd e) o, [(b, o)]) | None => None end
              end
          | KCall _ _ =>
              match at_rt (EEp ok) q with
              | None => None
              | Some (q', o) =>
                  if is_answer o then
                    if e_gone e then
                      match drop_answer o with
                      | None => Some (idle q', QDone (e_from e) (e_cmd e) o, [(EEp ok, o)])
                      | Some d =>
                          match at_rt d q' with
                          | Some (q'', o') => Some (idle q'', QDone (e_from e) (e_cmd e) o, [(EEp ok, o); (d, o')])
                          | None => None
                          end
                      end
                    else match e_from e with
                         | FCall t => Some (set_call t (CAnswered o) (idle q'), QDone (e_from e) (e_cmd e) o, [(EEp ok, o)])
                         | FSend _ => None
                         end
                  else Some (q', QUnit, [(EEp ok, o)])
              end
          end
      end
  | QReturn t =>
      match nth_error (q_calls q) t with
      | Some k => match k_stat k with CAnswered o => Some (set_call t COver q, QReturned t o, []) | _ => None end
      | None => None
      end
  | QDrop (FCall t) =>
      match nth_error (q_calls q) t with
      | None => None
      | Some k =>
          let q' := set_call t COver q in
          match k_stat k with
          | CNew => Some (q', QUnit, [])
          | CIn =>
              if existsb (waits (FCall t)) (q_chan q) then
                match at_rt (EAbandon (k_id k) (k_to k)) q' with
                | Some (q'', o) => Some (unwatch (FCall t) q'', QUnit, [(EAbandon (k_id k) (k_to k), o)])
                | None => None
                end
              else Some (unwatch (FCall t) q', QUnit, [])
          | CAnswered o =>
              match drop_answer o with
              | None => Some (q', QUnit, [])
              | Some d => match at_rt d q' with Some (q'', o') => Some (q'', QUnit, [(d, o')]) | None => None end
              end
          | COver => None
          end
      end
  | QDrop (FSend n) =>
      let b := ECancel n (in_channel (FSend n) q) in
      match at_rt b q with Some (q', o) => Some (unwatch (FSend n) q', QUnit, [(b, o)]) | None => None end
  | QClose =>                                                        (* a call borrows an [Endpoint] *)
      if forallb (fun k => match k_stat k with COver => true | _ => false end) (q_calls q)
      then match at_rt EClose q with Some (q', o) => Some (q', QUnit, [(EClose, o)]) | None => None end
      else None
  | QStop =>                                                         (* 368, 381 *)
      match q_over q, q_now q, q_chan q, ep_strong (q_rt q) with
      | false, None, [], false => Some (with_over q, QUnit, [])
      | _, _, _, _ => None
      end
  | QRun e =>
      if elsewhere e q
      then match at_rt e q with Some (q', o) => Some (q', QUnit, [(e, o)]) | None => None end
      else None
  end.

(** A schedule, with what was observed. *)
Fixpoint qrun (q : qst) (xs : list qevent) : option (qst * list qlog) :=
  match xs with
  | [] => Some (q, [])
  | x :: xs' =>
      match qstep q x with
      | Some (q', o, l) =>
          match qrun q' xs' with
          | Some (q'', tr) => Some (q'', (x, o, l) :: tr)
          | None => None
          end
      | None => None
      end
  end.
End Locks.
