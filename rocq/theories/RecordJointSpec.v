(** Vocabulary for the records about the tasks of remote runners. *)
From Verif Require Export RecordSpec JointSpec.
From Verif Require ServerModel.

(** What a message of the http server tells the scheduler. *)
Definition message_tells (e : ServerModel.event) : option told :=
  match e with
  | ServerModel.EStarted n host pid job => Some (Begun n host pid job)
  | ServerModel.EFinished n (inl rep) => Some (Ended n (Code (ServerModel.rp_status rep)) (ServerModel.rp_values rep))
  | ServerModel.EFinished n (inr _) => Some (Ended n Disconnected [])
  | _ => None
  end.
(** The reports of clients that are not local loops. *)
Definition remote_part (nlocal : nat) (rs : list (nat * told)) : list told :=
  omap (fun p => if Nat.leb nlocal (fst p) then Some (snd p) else None) rs.
(** The actions of the local loops and of the scheduler in a run of the whole system. *)
Definition local_actions (acts : list jaction) : list action := omap (fun a => match a with JTracker a => Some a | _ => None end) acts.
