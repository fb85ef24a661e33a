(** What the Python object tells about its tasks: /repo/src/pylib.rs:128-131, 180-200 and /repo/src/execgraph.rs:201-215. *)
From Verif Require Export SessionModel.

(** pylib.rs:128-131, execgraph.rs:201-203 *)
Definition py_ntasks (e : exec_graph) : nat := length (nodes (deps e)).

(** pylib.rs:180-195, execgraph.rs:205-207: command line, key and display string; [None] is an IndexError. *)
Definition py_get_task (e : exec_graph) (id : nat) : option (list string * string * option string) :=
  match nodes (deps e) !! id with
  | Some c => Some (c_cmdline c, c_key c, c_display c)
  | None => None
  end.

(** pylib.rs:197-200, execgraph.rs:209-215 *)
Definition py_task_keys (e : exec_graph) : list string := map c_key (nodes (deps e)).
