(** Model of the heartbeat of one task given to a remote runner: pings and pongs in /repo/src/bin/execgraph-remote.rs:235-307
    against the timer of the transaction in the server, /repo/src/server.rs:111-159, 240-265, 376-392. Times are in
    nanoseconds since the server has handled the request that gave out the task.

    Simplifications: the wheel is the number of ticks left until the timer fires (WheelProps.v, ServerProps.v: C29, C30); the
    watcher of pongs takes a pong when it arrives; tokio's timers may be late, by at most [slack] on the runner, and the ticks of
    the server by any time. Messages arrive in any order. *)
From Verif Require Export SyncModel.
Open Scope N_scope.

(** constants.rs:4-5, execgraph-remote.rs:235-237, server.rs:36, timewheel.rs:35: integer division of 35001 ms by 256 *)
Definition MS : N := 1000000.
Definition PING_INTERVAL : N := 15000 * MS.
Definition PONG_TIMEOUT : N := 2 * PING_INTERVAL.
Definition TICK : N := 35001 * MS / 256.
(** timewheel.rs:54: 256 * 35000 / 35001 *)
Definition TICKS : nat := 255.

Inductive runner :=
| Awaiting                        (* the response with the task is under way *)
| Beating (last due : N)          (* the task runs; time of the last pong; time of the next ping *)
| NoPong                          (* token3: no pong in time, or a ping failed *)
| Over.                           (* the task is finished *)

Record heart := Heart {
  he_now : N;
  he_left : option nat;           (* the server: ticks until the timer of the transaction fires; None: it has no transaction *)
  he_tick : N;                    (* the next tick is not before this time *)
  he_runner : runner;
  he_pings : list N;              (* on their way to the server: when sent *)
  he_pongs : list (N * N)         (* on their way to the runner: when the ping was sent, when it was handled *)
}.

(** What is known of the machines and the network.
    It models no code: an assumption about what lies between execgraph-remote.rs:266 and server.rs:240. *)
Record network := Network {
  nw_slack : N;                   (* a timer of the runner acts no later than this after it is due *)
  nw_trip : option N;             (* bound on the time from a ping to its pong *)
  nw_back : option N              (* bound on the time from the handling of a ping to its pong *)
}.

(** What becomes of execgraph-remote.rs:272, 298, 278, 428 and server.rs:145. *)
Inductive hevent :=
| EPong (handled now : N)         (* the runner gets the response to a request handled then *)
| EStopped (now : N)              (* the runner gives up: no pong *)
| EPingFailed (now : N)           (* the runner gives up: a ping has failed *)
| EFinished (now : N)             (* the task of the runner is finished *)
| EDisconnected (now : N).        (* the server reports the task as disconnected *)

Inductive haction :=
| HPass (d : N)
| HPing                           (* interval.tick, 262-266 *)
| HHandle (i : nat)               (* the server handles ping i *)
| HPong (i : nat)                 (* response i arrives *)
| HFail (i : nat)                 (* ping i fails, 276-279 *)
| HGiveUp                         (* timeout(ping_timeout, ...), 295-300 *)
| HFinish                         (* wait_with_output returns, 428; from here on the runner reports *)
| HEnd                            (* /end is handled: server.rs:452-472 *)
| HTick.                          (* server.rs:120, 127 *)

Section heart.
Variable nw : network.

(** It models no code: a bound of [network] (execgraph-remote.rs:266). *)
Definition within (o : option N) (sent now : N) : bool := match o with Some b => N.leb now (sent + b) | None => true end.

(** Time does not pass over what must happen. The timers of execgraph-remote.rs:262 and 295, and the bounds of [network]. *)
Definition may_pass (s : heart) (now : N) : bool :=
  match he_runner s with
  | Beating last due => N.leb now (last + PONG_TIMEOUT + nw_slack nw) && N.leb now (due + nw_slack nw)
  | _ => true
  end &&
  forallb (fun sent => within (nw_trip nw) sent now) (he_pings s) &&
  forallb (fun p => within (nw_trip nw) (fst p) now && within (nw_back nw) (snd p) now) (he_pongs s).

Definition hstep (s : heart) (a : haction) : option (heart * list hevent) :=
  match s with
  | Heart now togo tick r pings pongs =>
      match a with
      | HPass d => if may_pass s (now + d) then Some (Heart (now + d) togo tick r pings pongs, []) else None
      | HPing =>
          match r with
          | Beating last due => if N.leb due now then Some (Heart now togo tick (Beating last (now + PING_INTERVAL)) (pings ++ [now]) pongs, []) else None
          | _ => None
          end
      (* server.rs:252-264: the timer is set anew, if the transaction exists; the answer is OK in any case *)
      | HHandle i =>
          match pings !! i with
          | Some sent => Some (Heart now (match togo with Some _ => Some TICKS | None => None end) tick r (delete i pings) (pongs ++ [(sent, now)]), [])
          | None => None
          end
      (* 224-252 for the response with the task; 269-276, 295 for pongs *)
      | HPong i =>
          match pongs !! i with
          | Some (_, handled) =>
              Some (Heart now togo tick (match r with Awaiting => Beating now (now + PING_INTERVAL) | Beating _ due => Beating now due | _ => r end)
                          pings (delete i pongs), [EPong handled now])
          | None => None
          end
      | HFail i =>
          match pings !! i, r with
          | Some _, Beating _ _ => Some (Heart now togo tick NoPong (delete i pings) pongs, [EPingFailed now])
          | _, _ => None
          end
      | HGiveUp =>
          match r with
          | Beating last _ => if N.leb (last + PONG_TIMEOUT) now then Some (Heart now togo tick NoPong pings pongs, [EStopped now]) else None
          | _ => None
          end
      | HFinish => match r with Beating _ _ => Some (Heart now togo tick Over pings pongs, [EFinished now]) | _ => None end
      | HEnd => match r with Over => Some (Heart now None tick r pings pongs, []) | _ => None end
      (* MissedTickBehavior::Delay: a tick is at least TICK after the one before *)
      | HTick =>
          if N.leb tick now then
            match togo with
            | Some (S (S n)) => Some (Heart now (Some (S n)) (now + TICK) r pings pongs, [])
            | Some _ => Some (Heart now None (now + TICK) r pings pongs, [EDisconnected now])
            | None => Some (Heart now None (now + TICK) r pings pongs, [])
            end
          else None
      end
  end.

(** server.rs:376-392: the timer is set and the response sent at time 0. *)
Definition heart_start : heart := Heart 0 (Some TICKS) 0 Awaiting [] [(0, 0)].

(** A list of actions; it models no code: any interleaving of execgraph-remote.rs:251-307 and server.rs:111-159, 240-265 is such
    a list. *)
Fixpoint hrun (s : heart) (acts : list haction) : option (heart * list hevent) :=
  match acts with
  | [] => Some (s, [])
  | a :: rest =>
      match hstep s a with
      | None => None
      | Some (s', os) => match hrun s' rest with Some (s'', os') => Some (s'', os ++ os') | None => None end
      end
  end.
End heart.
