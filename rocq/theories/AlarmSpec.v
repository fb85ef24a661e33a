(** Vocabulary for the watcher of slurm's error file and for placeholders. *)
From Verif Require Export AlarmModel LocalSpec.

(** ** The watcher *)
Definition occurs (w s : bytes) : Prop := exists a b, s = a ++ w ++ b.
(** What alarms the watcher: one of the words, or a text that is not UTF-8. *)
Definition alarm_words : list string := ["CANCELLED"; "FAILED"; "ERROR"; "Unable to read"]%string.
Definition has_word (s : bytes) : Prop := exists w, In w alarm_words /\ occurs (B w) s.
Definition alarming (s : bytes) : Prop := has_word s \/ ~ is_utf8 s.
(** What is reported of a file with the text [s]. *)
Definition reported (s m : bytes) : Prop :=
  (is_utf8 s -> m = s) /\ (~ is_utf8 s -> m = B "Unable to read slurm error file. Utf8 issue?").

(** What slurm writes during [acts], and whether there is a modification. *)
Definition appended (a : alarm_action) : bytes := match a with WAppend b _ => b | _ => [] end.
Definition written (acts : list alarm_action) : bytes := concat (map appended acts).
Definition modifies (a : alarm_action) : Prop := match a with WAppend _ _ | WTouch => True | _ => False end.

(** The report of a slurm error in the trace [os]. *)
Definition slurm_end (o : alarm_obs) : Prop := exists tx st late m next out, o = ARunner (VEnd tx st late (Some m) next out).
Definition message (o : alarm_obs) : Prop := exists m, o = AMessage m.

(** ** Placeholders *)
(** [t] is [s] with the placeholders that have a value in [env] filled in, all at once. *)
Definition hole (env : ascii -> option bytes) (s : bytes) : Prop := exists l s' v, s = "%"%char :: l :: s' /\ env l = Some v.
Inductive filled (env : ascii -> option bytes) : bytes -> bytes -> Prop :=
| fi_nil : filled env [] []
| fi_hole l v s t : env l = Some v -> filled env s t -> filled env ("%"%char :: l :: s) (v ++ t)
| fi_other c s t : ~ hole env (c :: s) -> filled env s t -> filled env (c :: s) (c :: t).

(** The values of the placeholders of the two options; a variable that is not set leaves its placeholder as it is. *)
Definition or_empty (v : option bytes) : bytes := match v with Some v => v | None => [] end.
Definition message_values (su : surroundings) (l : ascii) : option bytes :=
  if Ascii.eqb l "u" then Some (su_user su)
  else if Ascii.eqb l "j" then Some (or_empty (su_array_job su) ++ ["_"%char] ++ or_empty (su_array_task su))
  else if Ascii.eqb l "x" then su_job_name su
  else if Ascii.eqb l "c" then su_cluster su
  else if Ascii.eqb l "h" then Some (su_host su)
  else None.
Definition logfile_values (su : surroundings) (job : bytes) (l : ascii) : option bytes :=
  if Ascii.eqb l "u" then Some (su_user su) else if Ascii.eqb l "j" then Some job else None.
(** No value has a percent sign. *)
Definition plain_values (env : ascii -> option bytes) : Prop := forall l v, env l = Some v -> "%"%char ∉ v.
(** No placeholder of [s] follows a percent sign. *)
Definition no_double_percent (env : ascii -> option bytes) (s : bytes) : Prop :=
  forall a b l, s = a ++ "%"%char :: "%"%char :: l :: b -> env l = None.
