(** Model of what execute() prints, /repo/src/sync.rs:401-470, over the model of the tracker (SchedModel.v). A message is what
    one rawlog! call is given; SinkModel.v is about what becomes of it. Here every rawlog! call succeeds.

    Simplifications: stdout and stderr of a task are given by a function of the task (each task is reported at most once in a
    call, see each_task_reported_once). The message of the admin server about a changed rate (admin_server.rs:47) is left out. *)
From Coq Require Import HexadecimalString HexadecimalN.
From Verif Require Export SchedModel LocModel.
Open Scope list_scope.

(** sync.rs:436, 450, 462 and 465. *)
Inductive message :=
| Progress (k n : N) (text : string)
| Failure (label key : string) (runcount : N) (text : string)
| Output (text : string).

(** The format {:x} of a u32. *)
Definition hexadecimal (n : N) : string := HexadecimalString.NilEmpty.string_of_uint (N.to_hex_uint n).
(** The characters in the formats of sync.rs:436 and 450. *)
Definition newline : string := String "010"%char EmptyString.
(** sync.rs:450 *)
Definition escape : string := String "027"%char EmptyString.

(** 435-440, 449-456, 462, 465; FAIL_COMMAND_PREFIX is in constants.rs:1 *)
Definition show (m : message) : string :=
  match m with
  | Progress k n text => "[" +:+ decimal k +:+ "/" +:+ decimal n +:+ "] " +:+ text +:+ newline
  | Failure label key runcount text =>
      escape +:+ "[1;31m" +:+ label +:+ ":" +:+ escape +:+ "[0m " +:+ "wrk/" +:+ key +:+ "." +:+ hexadecimal runcount +:+ ": " +:+ text +:+ newline
  | Output text => text
  end.

(** sync.rs:798-806 *)
Definition fail_description (s : exit_status) (fizzled : bool) : string :=
  match s with
  | Code _ => if fizzled then "FIZZLED" else "FAILED"
  | Cancelled => "CANCELLED"
  | Disconnected => "DISCONNECTED"
  end.

(** 460-467 *)
Definition outputs (out : string * string) : list message :=
  (if String.eqb (fst out) "" then [] else [Output (fst out)]) ++ (if String.eqb (snd out) "" then [] else [Output (snd out)]).

Section lines.
Variable cfg : config.
Variable count_offset : N.               (* execgraph.rs:260: the number of completed tasks *)
Variable outs : nat -> string * string.  (* stdout and stderr of the tasks *)
Notation g := (cf_g cfg).

(** 401-470; [sv] is the state before. The sums are of type u32, and wrap in release builds. *)
Definition report (sv : server) (id : nat) (s : exit_status) (now : N) (out : string * string) : list message :=
  match nodes g !! id with
  | None => []
  | Some c =>
      (if is_success s then
         [Progress ((sv_n_success sv + 1 + sv_n_failed sv + count_offset) mod U32)
                   ((N.of_nat (length (sv_statuses sv)) + count_offset) mod U32) (display c)]
       else if sv_soft sv then []
       else [Failure (fail_description s (is_fizzle s (elapsed_of sv id now))) (c_key c) (c_runcount c) (display c)])
      ++ (if sv_soft sv then [] else outputs out)
  end.

(** 186-229: the messages of the first part of drain. *)
Fixpoint drain_events_lines (evs : list event) (sv : server) (now : N) : list message :=
  match evs with
  | [] => []
  | EvStarted _ _ _ _ :: rest => drain_events_lines rest sv now
  | EvFinished id s _ _ :: rest => report sv id s now (outs id) ++ drain_events_lines rest (finished_bookkeeping_1 sv id s now) now
  end.
(** 231-242: of the second, new_disconnected (sync.rs:751-760) *)
Fixpoint drain_inflight_lines (order : list nat) (sv : server) (now : N) : list message :=
  match order with
  | [] => []
  | id :: rest => report sv id Disconnected now ("", "")%string ++ drain_inflight_lines rest (finished_bookkeeping_1 sv id Disconnected now) now
  end.
(** The state after the first part of drain (sync.rs:186-229). *)
Fixpoint after_drain_events (evs : list event) (sv : server) (now : N) : server :=
  match evs with
  | [] => sv
  | EvStarted _ _ _ _ :: rest => after_drain_events rest sv now
  | EvFinished id s _ _ :: rest => after_drain_events rest (finished_bookkeeping_1 sv id s now) now
  end.

(** The messages of one step that the model makes. sync.rs:401-470, called at 393 and in drain (200, 236). *)
Definition lines (s : st) (a : action) : list message :=
  match a with
  | AEvent now => match st_events s with EvFinished id x _ _ :: _ => report (st_sv s) id x now (outs id) | _ => [] end
  | ADrain order now =>
      drain_events_lines (st_events s) (st_sv s) now ++
      drain_inflight_lines order (with_log_inflight (after_drain_events (st_events s) (st_sv s) now) (sv_log (st_sv s)) ∅) now
  | _ => []
  end.

(** A list of actions of SchedModel.v with their messages; it models no code, any schedule of sync.rs:181-563 is such a list. *)
Fixpoint lines_run (s : st) (acts : list action) : option (st * list obs * list message) :=
  match acts with
  | [] => Some (s, [], [])
  | a :: rest =>
      match step cfg s a with
      | None => None
      | Some (s', os) =>
          match lines_run s' rest with
          | None => None
          | Some (s'', os', ms) => Some (s'', os ++ os', lines s a ++ ms)
          end
      end
  end.
End lines.
