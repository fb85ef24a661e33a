(** Model of the administrators' requests, /repo/src/admin_server.rs, with the parts of /repo/src/server.rs and /repo/src/time/gcra.rs that they use. Any
    number of requests are handled at once; what is one access to shared data is one step. *)
From Verif Require Export GcraModel.
From Coq Require Export String.
Local Open Scope N_scope.

(** The requests, admin_server.rs:62-69. The bodies: httpinterface.rs, [UpdateRatelimitRequest], [UpdateRemoteProvisionerInfoRequest], [ShutdownRequest]
    (without the user's name, which is only printed). *)
Inductive request := RLimit (per_second : N) | RInfo (info : option string) | RShutdown (soft : bool) | RStatus.

(** The shared data that they change: server.rs [State], its [provisioner] (behind a lock), the limiter of its [tracker] (gcra.rs:24-27), the trigger of the
    soft shutdown (sync.rs:606-608) and the token (admin_server.rs:57). *)
Record shared := Shared { a_info : option string; a_lim : limiter; a_soft : bool; a_hard : bool }.

(** How far the handling of a request is, admin_server.rs:20-60 and server.rs:190-237. *)
Inductive handler :=
| HWrite (q : request)                    (* before the change, admin_server.rs:24, 33, 45 *)
| HTat (tat : N)                          (* in reset, between the two stores, gcra.rs:50-51 *)
| HPoll                                   (* in status_handler, server.rs:205-212: the only place where it can be waiting *)
| HStatus                                 (* 213-232: before the limit is read *)
| HInfo (limit : N)                       (* 233-235: the limit was read, gcra.rs:54-61 *)
| HReply (limit : N) (info : option string) (* 235-237: the information was read *)
| HOver.                                  (* answered, panicked, or dropped with its connection *)

(** What a request stores: the tau of the limiter (gcra.rs:50), the information (admin_server.rs:34), one of the two flags (56-60). *)
Inductive value := VTau (tau : N) | VInfo (info : option string) | VShut (soft : bool).

(** The first two are what the users see. The others are the accesses to the shared data (gcra.rs:50 and 55, admin_server.rs:34, server.rs:235). *)
Inductive aobs :=
| OInvoked (i : nat) (q : request)                          (* request number i arrives *)
| OReplied (i : nat) (limit : N) (info : option string)     (* the fields ratelimit and provisioner_info of the StatusReply *)
| OSet (i : nat) (v : value)
| ORead (i : nat) (v : value).

(** All of it: the shared data, and the requests that came so far (admin_server.rs:62-69: axum runs a handler for each). *)
Record admin := Admin { ad_shared : shared; ad_handlers : gmap nat handler }.

(** The steps of the handlers, admin_server.rs:20-60. *)
Inductive aaction :=
| AInvoke (i : nat) (q : request)
| AWrite (i : nat) (now : N)              (* the change; now is the clock, gcra.rs:49 *)
| ATat (i : nat)                          (* gcra.rs:51 *)
| APolled (i : nat)                       (* get_queuestate returned *)
| ALimit (i : nat)
| AInfo (i : nat)
| AReply (i : nat)
| AFail (i : nat)                         (* admin_server.rs:45, 47-54: the time zone is not known or stderr cannot be written to: the handler panics *)
| AGone (i : nat).                        (* the client goes away: hyper drops the handler where it waits *)

(** Changes one handler (admin_server.rs:20-60). *)
Definition set_handler (s : admin) (i : nat) (h : handler) : admin := Admin (ad_shared s) (<[i := h]> (ad_handlers s)).

(** admin_server.rs:20-60, server.rs:190-238; the lines are at the actions. The change that a request makes is its first access. *)
Definition astep (s : admin) (a : aaction) : option (admin * list aobs) :=
  let d := ad_shared s in
  match a with
  | AInvoke i q =>
      match ad_handlers s !! i with
      | None => Some (set_handler s i (match q with RStatus => HPoll | _ => HWrite q end), [OInvoked i q])
      | Some _ => None
      end
  | AWrite i now =>
      match ad_handlers s !! i with
      | Some (HWrite (RLimit r)) =>
          Some (Admin (Shared (a_info d) (Limiter (tau_of r) (l_tat (a_lim d))) (a_soft d) (a_hard d)) (<[i := HTat (tat_of now r)]> (ad_handlers s)),
                [OSet i (VTau (tau_of r))])
      | Some (HWrite (RInfo v)) =>
          Some (Admin (Shared v (a_lim d) (a_soft d) (a_hard d)) (<[i := HPoll]> (ad_handlers s)), [OSet i (VInfo v)])
      | Some (HWrite (RShutdown soft)) =>
          Some (Admin (Shared (a_info d) (a_lim d) (a_soft d || soft) (a_hard d || negb soft)) (<[i := HPoll]> (ad_handlers s)),
                [OSet i (VShut soft)])
      | _ => None
      end
  | ATat i =>
      match ad_handlers s !! i with
      | Some (HTat tat) =>
          Some (Admin (Shared (a_info d) (Limiter (l_tau (a_lim d)) tat) (a_soft d) (a_hard d)) (<[i := HPoll]> (ad_handlers s)), [])
      | _ => None
      end
  | APolled i => match ad_handlers s !! i with Some HPoll => Some (set_handler s i HStatus, []) | _ => None end
  | ALimit i =>
      match ad_handlers s !! i with
      | Some HStatus => Some (set_handler s i (HInfo (rate_per_second (a_lim d) mod 4294967296)), [ORead i (VTau (l_tau (a_lim d)))])
      | _ => None
      end
  | AInfo i =>
      match ad_handlers s !! i with
      | Some (HInfo l) => Some (set_handler s i (HReply l (a_info d)), [ORead i (VInfo (a_info d))])
      | _ => None
      end
  | AReply i => match ad_handlers s !! i with Some (HReply l v) => Some (set_handler s i HOver, [OReplied i l v]) | _ => None end
  | AFail i => match ad_handlers s !! i with Some (HWrite (RShutdown _)) => Some (set_handler s i HOver, []) | _ => None end
  | AGone i => match ad_handlers s !! i with Some HPoll => Some (set_handler s i HOver, []) | _ => None end
  end.

(** Any interleaving of the handlers of admin_server.rs:20-60; it models no code itself. *)
Fixpoint arun (s : admin) (acts : list aaction) : option (admin * list aobs) :=
  match acts with
  | [] => Some (s, [])
  | a :: acts =>
      match astep s a with
      | None => None
      | Some (s1, o1) => match arun s1 acts with None => None | Some (s2, o2) => Some (s2, o1 ++ o2) end
      end
  end.

(** execgraph.rs:249-283, pylib.rs:334-360: what execute() was called with. *)
Definition admin_start (now rate : N) (info : option string) : admin := Admin (Shared info (new_limiter now rate) false false) ∅.
