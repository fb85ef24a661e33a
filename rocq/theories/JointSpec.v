(** Vocabulary for statements about the server and the tracker together. *)
From Verif Require Export JointModel SchedSpec.
From Verif Require ServerSpec.

(** The two sides of a trace. *)
Definition tracker_side (t : list (obs + ServerModel.event)) : list obs :=
  omap (fun x => match x with inl o => Some o | inr _ => None end) t.
Definition http_side (t : list (obs + ServerModel.event)) : list ServerModel.event :=
  omap (fun x => match x with inl _ => None | inr e => Some e end) t.

(** A run of the whole system from the start. *)
Definition jreachable (secret : string) (cfg : config) (nlocal : nat) (acts : list jaction) (s : joint)
    (t : list (obs + ServerModel.event)) : Prop :=
  jrun secret cfg nlocal (joint_new cfg) acts = Some (s, t).

(** A message of the server to the tracker that a runner has begun task [n]. *)
Definition is_begun (n : nat) (e : ServerModel.event) : Prop :=
  exists host pid job, e = ServerModel.EStarted n host pid job.
Definition is_message (e : ServerModel.event) : Prop :=
  match e with ServerModel.EStarted _ _ _ _ | ServerModel.EFinished _ _ => True | _ => False end.

(** What a request asks for, if it asks for a task; the last request that handler [h] got. *)
Definition asks (q : ServerModel.request) : option ServerModel.start_req :=
  match q with ServerModel.QStart sr => Some sr | ServerModel.QEnd _ _ next => next | _ => None end.
Definition last_request (h : N) (acts : list jaction) : option ServerModel.request :=
  fold_left (fun r a => match a with JHttp (ServerModel.LRequest h' _ _ q) _ => if N.eqb h h' then Some q else r | _ => r end) acts None.
