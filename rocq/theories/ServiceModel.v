(** Model of the parts of one call of execute() that run side by side, /repo/src/execgraph.rs:284-447: the local process
    loops, the http server with its reaper and its connections, the admin server with its connections, the provisioner and its
    process, and execute() itself, which waits for them. The subject is who ends when, who uses the tracker until when, and
    what the provisioner is given and told; what the parts do with tasks is in PoolModel.v and RemoteModel.v.

    The tracker lives on the stack of execute(), and the commands of the graph in the session, which the user may change after the
    call; the parts hold references to them whose lifetime is extended by transmute (execgraph.rs:251-258), so that nothing but the
    order of events makes their use safe.

    Simplifications: all tokens but the hard cancellation are left out; connections are counted; a part that panics ends
    there; the http server's accept never returns an error (hyper sleeps and tries again, the default of AddrIncoming),
    that of the admin server may (hyper::server::accept::from_stream passes errors on). *)
From Verif Require Export LocModel.
Open Scope list_scope.

(** The signals of execgraph.rs:428 (kill_on_drop) and 433. *)
Inductive signal := SIGINT | SIGKILL.

(** The parts that use the tracker. execgraph.rs:297, 309, 328; server.rs:112. *)
Inductive user := ULoop (i : nat) | UConnection | UAdminConnection | UReaper.

(** What happens in execgraph.rs:286-443 that is seen outside, and the uses of borrowed memory. *)
Inductive sobs :=
| OListening (port : N)                                  (* the http server accepts connections at this port *)
| OSpawned (cmd url token : string) (pid : N)            (* the provisioner's process: program, argument, environment variable *)
| OSpawnFailed                                           (* it cannot be started *)
| OWaited (pid : N)                                      (* it has exited, and has been waited for *)
| OKilled (pid : N) (sig : signal)                       (* a signal is sent to it *)
| OUse (u : user)                                        (* a use of the tracker or the graph *)
| OFree                                                  (* the tracker is dropped, the borrow of the session ends *)
| OServeFailed                                           (* background_serve() returns an error, execute() panics *)
| OAdminBroken                                           (* accept() of the admin server fails *)
| OReturned.                                             (* execute() returns *)

(** Where execute() is (execgraph.rs:388-414). *)
Inductive main_phase := MServing | MJoining | MReturned | MPanicked.
(** Where the task of the http server is (execgraph.rs:338-363). *)
Inductive server_phase := SvStarting | SvServing | SvDraining | SvJoining | SvEnded | SvPanicked.
(** Where reap_pings_forever() is (execgraph.rs:351, server.rs:112). *)
Inductive reaper_phase := RpAbsent | RpRunning | RpStopped | RpPanicked.
(** Where run_admin_service_forever() is (admin_server.rs:71-116). *)
Inductive admin_phase := AdStarting | AdServing | AdDraining | AdEnded.
(** Where the task of the provisioner is (execgraph.rs:367-382, 418-443). *)
Inductive prov_phase := PvWaiting | PvRunning (pid : N) | PvSignalled (pid : N) | PvEnded | PvPanicked.
(** The child of execgraph.rs:425. *)
Inductive process := NoProcess | Alive | Exited | Waited.
(** The channel of execgraph.rs:334. *)
Inductive address := NotYet | Sent (url : string) | Dropped.

(** The state of one call (execgraph.rs:277-414). *)
Record call := Call {
  ca_hard : bool;           (* the token is hard cancelled *)
  ca_finished : bool;       (* the last task has been reported, or another reason of background_serve to end *)
  ca_main : main_phase;
  ca_loops : list bool;     (* the local process loops, true if it runs *)
  ca_server : server_phase;
  ca_conns : nat;           (* connections of the http server *)
  ca_reaper : reaper_phase;
  ca_stop : bool;           (* stop_reaping_pings_tx has been used *)
  ca_admin : admin_phase;
  ca_aconns : nat;          (* connections of the admin server *)
  ca_addr : address;        (* the oneshot channel http_service_up *)
  ca_prov : prov_phase;
  ca_proc : process
}.

(** Changes one field: the token (execgraph.rs:361, 380, 392). *)
Definition set_hard (s : call) : call :=
  Call true (ca_finished s) (ca_main s) (ca_loops s) (ca_server s) (ca_conns s) (ca_reaper s) (ca_stop s) (ca_admin s) (ca_aconns s) (ca_addr s) (ca_prov s) (ca_proc s).
(** Changes one field. (What makes background_serve() return, 388.) *)
Definition set_finished (s : call) : call :=
  Call (ca_hard s) true (ca_main s) (ca_loops s) (ca_server s) (ca_conns s) (ca_reaper s) (ca_stop s) (ca_admin s) (ca_aconns s) (ca_addr s) (ca_prov s) (ca_proc s).
(** Changes one field (execgraph.rs:388-414). *)
Definition set_main (m : main_phase) (s : call) : call :=
  Call (ca_hard s) (ca_finished s) m (ca_loops s) (ca_server s) (ca_conns s) (ca_reaper s) (ca_stop s) (ca_admin s) (ca_aconns s) (ca_addr s) (ca_prov s) (ca_proc s).
(** Changes one field (291-318). *)
Definition set_loops (l : list bool) (s : call) : call :=
  Call (ca_hard s) (ca_finished s) (ca_main s) l (ca_server s) (ca_conns s) (ca_reaper s) (ca_stop s) (ca_admin s) (ca_aconns s) (ca_addr s) (ca_prov s) (ca_proc s).
(** Changes one field (338-363). *)
Definition set_server (x : server_phase) (s : call) : call :=
  Call (ca_hard s) (ca_finished s) (ca_main s) (ca_loops s) x (ca_conns s) (ca_reaper s) (ca_stop s) (ca_admin s) (ca_aconns s) (ca_addr s) (ca_prov s) (ca_proc s).
(** Changes one field (341). *)
Definition set_conns (n : nat) (s : call) : call :=
  Call (ca_hard s) (ca_finished s) (ca_main s) (ca_loops s) (ca_server s) n (ca_reaper s) (ca_stop s) (ca_admin s) (ca_aconns s) (ca_addr s) (ca_prov s) (ca_proc s).
(** Changes one field (351). *)
Definition set_reaper (x : reaper_phase) (s : call) : call :=
  Call (ca_hard s) (ca_finished s) (ca_main s) (ca_loops s) (ca_server s) (ca_conns s) x (ca_stop s) (ca_admin s) (ca_aconns s) (ca_addr s) (ca_prov s) (ca_proc s).
(** Changes one field (359). *)
Definition set_stop (s : call) : call :=
  Call (ca_hard s) (ca_finished s) (ca_main s) (ca_loops s) (ca_server s) (ca_conns s) (ca_reaper s) true (ca_admin s) (ca_aconns s) (ca_addr s) (ca_prov s) (ca_proc s).
(** Changes one field (365). *)
Definition set_admin (x : admin_phase) (s : call) : call :=
  Call (ca_hard s) (ca_finished s) (ca_main s) (ca_loops s) (ca_server s) (ca_conns s) (ca_reaper s) (ca_stop s) x (ca_aconns s) (ca_addr s) (ca_prov s) (ca_proc s).
(** Changes one field (365). *)
Definition set_aconns (n : nat) (s : call) : call :=
  Call (ca_hard s) (ca_finished s) (ca_main s) (ca_loops s) (ca_server s) (ca_conns s) (ca_reaper s) (ca_stop s) (ca_admin s) n (ca_addr s) (ca_prov s) (ca_proc s).
(** Changes one field (343). *)
Definition set_addr (a : address) (s : call) : call :=
  Call (ca_hard s) (ca_finished s) (ca_main s) (ca_loops s) (ca_server s) (ca_conns s) (ca_reaper s) (ca_stop s) (ca_admin s) (ca_aconns s) a (ca_prov s) (ca_proc s).
(** Changes one field (367). *)
Definition set_prov (x : prov_phase) (s : call) : call :=
  Call (ca_hard s) (ca_finished s) (ca_main s) (ca_loops s) (ca_server s) (ca_conns s) (ca_reaper s) (ca_stop s) (ca_admin s) (ca_aconns s) (ca_addr s) x (ca_proc s).
(** Changes one field (425). *)
Definition set_proc (x : process) (s : call) : call :=
  Call (ca_hard s) (ca_finished s) (ca_main s) (ca_loops s) (ca_server s) (ca_conns s) (ca_reaper s) (ca_stop s) (ca_admin s) (ca_aconns s) (ca_addr s) (ca_prov s) x.

(** execgraph.rs:325: base64 (general_purpose::STANDARD of base64 0.21) of the 16 bytes of a random number, lowest first. *)
Fixpoint le_bytes (k : nat) (n : N) : list N :=
  match k with O => [] | S k => (n mod 256)%N :: le_bytes k (n / 256)%N end.
(** The alphabet of general_purpose::STANDARD (execgraph.rs:325). *)
Definition b64_char (x : N) : ascii :=
  match String.get (N.to_nat x) "ABCDEFGHIJKLMNOPQRSTUVWXYZabcdefghijklmnopqrstuvwxyz0123456789+/" with Some a => a | None => "="%char end.
(** Engine::encode (execgraph.rs:325), with padding. *)
Fixpoint b64_encode (bs : list N) : string :=
  match bs with
  | a :: b :: c :: rest =>
      String (b64_char (a / 4)) (String (b64_char ((a mod 4) * 16 + b / 16)) (String (b64_char ((b mod 16) * 4 + c / 64)) (String (b64_char (c mod 64)) (b64_encode rest))))
  | [a; b] => String (b64_char (a / 4)) (String (b64_char ((a mod 4) * 16 + b / 16)) (String (b64_char ((b mod 16) * 4)) "="))
  | [a] => String (b64_char (a / 4)) (String (b64_char ((a mod 4) * 16)) "==")
  | [] => ""
  end.
(** execgraph.rs:325 *)
Definition token_of (random : N) : string := b64_encode (le_bytes 16 random).

(** execgraph.rs:340-344: "http://{}" of the local address of a server bound to 0.0.0.0 *)
Definition url_of (port : N) : string := "http://0.0.0.0:" +:+ decimal port.

Record plan := Plan {
  pl_loops : nat;                    (* num_parallel + 1, or 0 *)
  pl_prov : option string;           (* the command of the provisioner *)
  pl_random : N                      (* rand::random::<u128>(), for the authorization token *)
}.

Inductive saction :=
| AServeEnds                         (* background_serve() ends: the token (sync.rs:369), the last report (351), the channel (290) *)
| ACtrlC                             (* ... because of SIGINT (sync.rs:374) *)
| AServeFails                        (* ... with an error: the log cannot be written, for example *)
| AAllFinished                       (* the last task is reported, or the last running one of a soft shutdown *)
| AReturn | ADrainFails              (* join_all is done; drain() *)
| ALoopUse (i : nat) | ALoopEnd (i : nat)
| AListen (port : N) | ABindFails    (* execgraph.rs:341 *)
| AConnect | AConnUse | AConnEnd     (* connections of the http server *)
| AShutdown                          (* the http server notices the cancellation, 346 *)
| ADrained                           (* the last connection is closed, 359 *)
| AReap | AReaperStops | AReaperPanics
| AServerJoins                       (* 360-361 *)
| AAdminSkips | AAdminFails | AAdminListens | AAdminConnect | AAdminUse | AAdminConnEnd
| AAdminHard                         (* POST /shutdown, admin_server.rs:57 *)
| AAdminShutdown | AAdminDrained | AAdminBroken
| AStart (pid : N) | AStartFails | ANoAddress            (* the provisioner's process is started, 425-429 *)
| AProcessExits                                          (* by itself, or because of a signal *)
| AWait | AWaitFails | AInterrupt | ADropChild.           (* 430-440 *)

Section service.
Variable pl : plan.

(** 286-383: a part that does not exist in this call has ended. *)
Definition start : call :=
  match pl_prov pl with
  | Some _ => Call false false MServing (replicate (pl_loops pl) true) SvStarting 0 RpAbsent false AdStarting 0 NotYet PvWaiting NoProcess
  | None => Call false false MServing (replicate (pl_loops pl) true) SvEnded 0 RpAbsent false AdEnded 0 NotYet PvEnded NoProcess
  end.

(** 395: join_all waits for the loops, the http server, the admin server and the provisioner's task. *)
Definition joined (s : call) : bool :=
  forallb negb (ca_loops s) &&
  match ca_server s with SvEnded | SvPanicked => true | _ => false end &&
  match ca_admin s with AdEnded => true | _ => false end &&
  match ca_prov s with PvEnded | PvPanicked => true | _ => false end.

(** Loop [i] exists and runs (291-318). *)
Definition is_loop (s : call) (i : nat) : bool := match ca_loops s !! i with Some b => b | None => false end.

Definition sstep (s : call) (a : saction) : option (call * list sobs) :=
  match a with
  (* 388-392 *)
  | AServeEnds => match ca_main s with MServing => if ca_hard s || ca_finished s then Some (set_main MJoining (set_hard s), []) else None | _ => None end
  | ACtrlC => match ca_main s with MServing => Some (set_main MJoining (set_hard s), []) | _ => None end
  | AServeFails => match ca_main s with MServing => Some (set_main MPanicked s, [OServeFailed; OFree]) | _ => None end
  (* reports come from loops, connections and the reaper *)
  | AAllFinished => match ca_main s with MServing => if existsb id (ca_loops s) || Nat.ltb 0 (ca_conns s) || match ca_reaper s with RpRunning => true | _ => false end
                                                     then Some (set_finished s, []) else None | _ => None end
  (* 395-414 *)
  | AReturn => match ca_main s with MJoining => if joined s then Some (set_main MReturned s, [OFree; OReturned]) else None | _ => None end
  | ADrainFails => match ca_main s with MJoining => if joined s then Some (set_main MPanicked s, [OFree]) else None | _ => None end
  (* localrunner.rs:35 *)
  | ALoopUse i => if is_loop s i then Some (s, [OUse (ULoop i)]) else None
  | ALoopEnd i => if is_loop s i then Some (set_loops (<[i:=false]> (ca_loops s)) s, []) else None
  (* 338-354 *)
  | AListen port => match ca_server s with SvStarting => Some (set_addr (Sent (url_of port)) (set_reaper RpRunning (set_server SvServing s)), [OListening port]) | _ => None end
  | ABindFails => match ca_server s with SvStarting => Some (set_addr Dropped (set_server SvPanicked s), []) | _ => None end
  | AConnect => match ca_server s with SvServing => Some (set_conns (S (ca_conns s)) s, []) | _ => None end
  | AConnUse => match ca_conns s with S _ => Some (s, [OUse UConnection]) | O => None end
  | AConnEnd => match ca_conns s with S n => Some (set_conns n s, []) | O => None end
  (* 346, 355 *)
  | AShutdown => match ca_server s with SvServing => if ca_hard s then Some (set_server SvDraining s, []) else None | _ => None end
  | ADrained =>
      match ca_server s, ca_conns s with
      | SvDraining, O => match ca_reaper s with RpRunning => Some (set_stop (set_server SvJoining s), []) | _ => Some (set_server SvPanicked s, []) end
      | _, _ => None
      end
  (* server.rs:112-159 *)
  | AReap => match ca_reaper s with RpRunning => Some (s, [OUse UReaper]) | _ => None end
  | AReaperStops => match ca_reaper s with RpRunning => if ca_stop s then Some (set_reaper RpStopped s, []) else None | _ => None end
  | AReaperPanics => match ca_reaper s with RpRunning => Some (set_reaper RpPanicked s, []) | _ => None end
  (* 360-361 *)
  | AServerJoins =>
      match ca_server s, ca_reaper s with
      | SvJoining, RpStopped => Some (set_hard (set_server SvEnded s), [])
      | SvJoining, RpPanicked => Some (set_server SvPanicked s, [])
      | _, _ => None
      end
  (* admin_server.rs:71-116: no directory; bind() fails; from 111 on as above *)
  | AAdminSkips | AAdminFails => match ca_admin s with AdStarting => Some (set_admin AdEnded s, []) | _ => None end
  | AAdminListens => match ca_admin s with AdStarting => Some (set_admin AdServing s, []) | _ => None end
  | AAdminConnect => match ca_admin s with AdServing => Some (set_aconns (S (ca_aconns s)) s, []) | _ => None end
  | AAdminUse => match ca_aconns s with S _ => Some (s, [OUse UAdminConnection]) | O => None end
  | AAdminConnEnd => match ca_aconns s with S n => Some (set_aconns n s, []) | O => None end
  | AAdminHard => match ca_aconns s with S _ => Some (set_hard s, []) | O => None end
  | AAdminShutdown => match ca_admin s with AdServing => if ca_hard s then Some (set_admin AdDraining s, []) else None | _ => None end
  | AAdminDrained => match ca_admin s, ca_aconns s with AdDraining, O => Some (set_admin AdEnded s, []) | _, _ => None end
  | AAdminBroken => match ca_admin s with AdServing => Some (set_admin AdEnded s, [OAdminBroken]) | _ => None end
  (* 367-382, 418-429; an error of spawn() ends in 380 *)
  | AStart pid =>
      match ca_prov s, ca_addr s, pl_prov pl with
      | PvWaiting, Sent url, Some cmd => Some (set_prov (PvRunning pid) (set_proc Alive s), [OSpawned cmd url (token_of (pl_random pl)) pid])
      | _, _, _ => None
      end
  | AStartFails => match ca_prov s, ca_addr s with PvWaiting, Sent _ => Some (set_hard (set_prov PvEnded s), [OSpawnFailed]) | _, _ => None end
  | ANoAddress => match ca_prov s, ca_addr s with PvWaiting, Dropped => Some (set_prov PvPanicked s, []) | _, _ => None end
  | AProcessExits => match ca_proc s with Alive => Some (set_proc Exited s, []) | _ => None end
  (* 436-439, then 380 *)
  | AWait => match ca_prov s, ca_proc s with PvRunning pid, Exited => Some (set_hard (set_prov PvEnded (set_proc Waited s)), [OWaited pid]) | _, _ => None end
  (* wait() fails: 437, and the child is dropped; kill_on_drop (428) *)
  | AWaitFails => match ca_prov s with PvRunning pid => Some (set_hard (set_prov PvEnded s), [OKilled pid SIGKILL]) | _ => None end
  (* 432-434: child.id() is Some, it has not been waited for *)
  | AInterrupt => match ca_prov s with PvRunning pid => if ca_hard s then Some (set_prov (PvSignalled pid) s, [OKilled pid SIGINT]) else None | _ => None end
  (* 442-443: the child is dropped at once *)
  | ADropChild => match ca_prov s with PvSignalled pid => Some (set_hard (set_prov PvEnded s), [OKilled pid SIGKILL]) | _ => None end
  end.

(** A list of actions; it models no code: any interleaving of the parts (286-443) is such a list. *)
Fixpoint srun (s : call) (acts : list saction) : option (call * list sobs) :=
  match acts with
  | [] => Some (s, [])
  | a :: rest =>
      match sstep s a with
      | None => None
      | Some (s', os) => match srun s' rest with Some (s'', os') => Some (s'', os ++ os') | None => None end
      end
  end.
End service.
