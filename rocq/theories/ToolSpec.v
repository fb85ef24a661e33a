(** Vocabulary for load_logfile and write_logfile. *)
From Verif Require Export ToolModel LogSpec.

(** The log [f] can be opened, with state [s]. *)
Definition opens (f : bytes) (s : log_state) : Prop := load_file f = FLoaded (LOk s).

(** There is a record of key [k] among [es] (Backrefs do not count). *)
Definition key_in (k : string) (es : list log_entry) : Prop := exists e, In e es /\ record_of k e <> None.
