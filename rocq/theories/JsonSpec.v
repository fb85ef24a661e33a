(** Vocabulary for the text of the log: which records can be written, what a file of records is. *)
From Verif Require Export JsonModel LogSpec LocalSpec.

(** Ranges of the Rust types: u32, i32, and times from 1970 on that fit a SystemTime. *)
Definition u32 (n : N) : Prop := (n < 2 ^ 32)%N.
Definition i32 (z : Z) : Prop := (- 2 ^ 31 <= z < 2 ^ 31)%Z.
Definition a_time (t : systime) : Prop := (secs t < 2 ^ 63 /\ nanos t < 10 ^ 9)%N.
Definition in_range (e : log_entry) : Prop :=
  match e with
  | Header h => u32 (h_version h) /\ a_time (h_time h) /\ u32 (h_pid h)
  | Ready r => a_time (r_time r) /\ u32 (r_runcount r) /\ u32 (r_storage_root r)
  | Started s => a_time (s_time s) /\ u32 (s_pid s)
  | Finished f => a_time (f_time f) /\ i32 (f_status f)
  | Backref _ => True
  end.

(** All the strings of a record. *)
Definition map_strings (m : gmap string string) : list string :=
  concat (map (fun p => [fst p; snd p]) (map_to_list m)).
Definition strings_of (e : log_entry) : list string :=
  match e with
  | Header h => [h_user h; h_hostname h; h_workflow_key h; h_workdir h] ++ h_cmdline h ++ h_storage_roots h
  | Ready r => [r_key r; r_command r]
  | Started s => [s_key s; s_host s; s_slurm_jobid s]
  | Finished f => f_key f :: concat (map map_strings (f_values f))
  | Backref b => [b_key b]
  end.
(** The strings of a Rust program are UTF-8. *)
Definition rust_strings (e : log_entry) : Prop := forall s, s ∈ strings_of e -> is_utf8 (B s).
Definition rust_record (e : log_entry) : Prop := in_range e /\ rust_strings e.

(** A file to which the records [es] were written one after the other. *)
Inductive file_of : list log_entry -> bytes -> Prop :=
| fo_none : file_of [] []
| fo_write es f e f' : file_of es f -> appends e f f' -> file_of (es ++ [e]) f'.

(** The beginning of a file. *)
Definition begins (g f : bytes) : Prop := exists lost, f = g ++ lost.
(** [g] is where the records [es] end, with or without the last newline. *)
Definition ends_after (es : list log_entry) (g : bytes) : Prop := file_of es g \/ file_of es (g ++ [LF]).
