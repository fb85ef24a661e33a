(** C16 and C17: the text of the log. *)
From Verif Require Import Utf8Proofs LogProofs LogProps.
From Verif Require Import JsonSpec JsonProofs.
From stdpp Require Import prelude.

(** C16: the text of a record contains no newline, no carriage return and no other control character ... *)
Theorem record_is_one_line e t : record_text e t -> forall c, c ∈ t -> (32 <= code c)%N /\ c <> LF /\ c <> CRET.
Proof.
  intros H c Hc. pose proof (text_printable e t H) as Hp. rewrite Forall_forall in Hp. specialize (Hp c Hc).
  split; [exact Hp|]. split; intros ->; by vm_compute in Hp.
Qed.
Print Assumptions record_is_one_line.

(** ... and parsing it gives back the record, whatever strings it holds and in whatever order its maps were written. *)
Theorem record_round_trip e t : in_range e -> record_text e t -> parse_record t = Some e.
Proof. exact (round_trip e t). Qed.
Print Assumptions record_round_trip.

(** Every record has a text, and different records have different texts. *)
Theorem record_has_text e : exists t, record_text e t.
Proof.
  destruct e as [h|r|s|f|b]; try (by eexists; exists []).
  eexists. exists (map map_to_list (f_values f)). split; [|reflexivity]. cbn.
  induction (f_values f); cbn; by constructor.
Qed.
Theorem record_text_unambiguous e e' t : in_range e -> in_range e' -> record_text e t -> record_text e' t -> e = e'.
Proof. intros H1 H2 H3 H4. pose proof (round_trip _ _ H1 H3). pose proof (round_trip _ _ H2 H4). congruence. Qed.
Print Assumptions record_text_unambiguous.

(** The text is UTF-8, so reading the line into a string succeeds. *)
Theorem record_text_is_utf8 e t : rust_strings e -> record_text e t -> is_utf8 t.
Proof. intros H1 H2. apply utf8_valid_spec. by eapply text_utf8. Qed.
Print Assumptions record_text_is_utf8.

(** C16: a whole file reads back as the records written to it, both when it is opened for a run and by the snapshot
    reader. *)
Theorem file_reads_back es f : Forall rust_record es -> file_of es f ->
  load_file f = FLoaded (load_runcounts es) /\ read_file f = Some es.
Proof. intros H1 H2. apply cut_at_end; [done|by left]. Qed.
Print Assumptions file_reads_back.

(** C15, C16: open a log with records [F], write [es]: the bytes on disk, read again, give the state in memory. *)
Theorem reopened_file_gives_memory F l0 es l f :
  log_open F = OpenOk l0 -> log_writes l0 es = Some l -> headers_ok (F ++ es) ->
  Forall rust_record (F ++ es) -> file_of (F ++ es) f -> load_file f = FLoaded (LOk (lf_state l)).
Proof.
  intros H1 H2 H3 H4 H5. destruct (reopen_reproduces_state _ _ _ _ H1 H2 H3) as [H6 H7].
  destruct (file_reads_back _ _ H4 H5) as [-> _]. rewrite H6 in H7. unfold log_open in H7.
  destruct (load_runcounts (F ++ es)) eqn:E; by simplify_eq.
Qed.
Print Assumptions reopened_file_gives_memory.

(** C17: cut the file anywhere. If it can still be opened, the state is the one after the first so many of the records
    written, and the cut is at the end of the last of them. *)
Theorem torn_log_never_lies es f g s :
  Forall rust_record es -> file_of es f -> begins g f -> load_file g = FLoaded (LOk s) ->
  exists es1 es2, es = es1 ++ es2 /\ ends_after es1 g /\ load_runcounts es1 = LOk s.
Proof.
  intros H1 H2 H3 H4. destruct (cut_loaded _ _ _ _ H1 H2 H3 H4) as (es1 & es2 & H5 & H6 & H7).
  exists es1, es2. split; [done|]. split; [by eapply H7|done].
Qed.
Print Assumptions torn_log_never_lies.

(** C17: opening a cut file does not panic, and complains about nothing that opening the whole file would not complain
    about, except that it is not UTF-8 or not a record. *)
Theorem torn_log_no_new_complaint es f g r :
  Forall rust_record es -> file_of es f -> begins g f -> load_file g = FLoaded r -> (forall s, r <> LOk s) ->
  load_file f = FLoaded r.
Proof.
  intros H1 H2 H3 H4 H5. destruct (cut_loaded _ _ _ _ H1 H2 H3 H4) as (es1 & es2 & -> & H6 & _).
  destruct (file_reads_back _ _ H1 H2) as [-> _]. f_equal. unfold load_runcounts in *.
  clear H1 H2 H4. revert H6. generalize (LoadVars ∅ None None). induction es1 as [|e es1 IH]; intros v Hl.
  - cbn in Hl. subst r. by edestruct H5.
  - cbn [load_loop app] in *. destruct (load_step v e); [|done]. by apply IH.
Qed.
Print Assumptions torn_log_no_new_complaint.

(** C17: a cut at the end of a record, with or without its newline, loses just the records behind it ... *)
Theorem cut_at_record_end es g : Forall rust_record es -> ends_after es g ->
  load_file g = FLoaded (load_runcounts es) /\ read_file g = Some es.
Proof. exact (cut_at_end es g). Qed.
Print Assumptions cut_at_record_end.

(** ... and a cut inside a record is an error. *)
Theorem cut_inside_record es f e t y z s :
  Forall rust_record es -> file_of es f -> load_runcounts es = LOk s -> rust_record e -> record_text e t ->
  t = y ++ z -> y <> [] -> z <> [] ->
  load_file (f ++ y) = FNotUtf8 \/ load_file (f ++ y) = FNotJson.
Proof.
  intros H1 H2 H3 H4 H5 H6 H7 H8. destruct (cut_inside es f e t y z H1 H2 H4 H5 H6 H7 H8) as [H _]. by rewrite H3 in H.
Qed.
Print Assumptions cut_inside_record.

(** C17 for the snapshot reader: of a file cut anywhere it shows the first so many records or gives an error. *)
Theorem torn_snapshot_never_lies es f g es' :
  Forall rust_record es -> file_of es f -> begins g f -> read_file g = Some es' -> exists es2, es = es' ++ es2.
Proof. exact (cut_read es f g es'). Qed.
Print Assumptions torn_snapshot_never_lies.

(** ** Examples *)
Definition t0 : systime := SysTime 1700000000 123456789.
Definition awkward : string := S_of [DQ; BSL; LF; CRET; "000"; "031"; "127"; "195"; "169"; "240"; "159"; "166"; "128"]%char.
Definition h0 : log_entry := Header (HeaderEntry 4 t0 "me" "host" "wk" ["prog"; awkward] "/tmp" 4294967295 ["/a b"; ""]).
Definition r0 : log_entry := Ready (ReadyEntry t0 "k" 0 awkward 1).
Definition s0 : log_entry := Started (StartedEntry t0 "k" "node" 17 "").
Definition f0 : log_entry := Finished (FinishedEntry t0 "k" (-2147483648) [{["b" := awkward; "a" := ""]}; ∅]).
Definition b0 : log_entry := Backref (BackrefEntry awkward).
Definition demo : list log_entry := [h0; r0; s0; f0; b0].

Lemma strings_checked e : forallb (fun s => utf8_valid (B s)) (strings_of e) = true -> rust_strings e.
Proof.
  intros H s Hs. apply utf8_valid_spec. rewrite forallb_forall in H. apply H. by apply elem_of_list_In.
Qed.
Example demo_rust : Forall rust_record demo.
Proof.
  repeat (apply List.Forall_cons; [split; [cbn; unfold a_time, u32, i32; cbn [secs nanos]; repeat split; lia|apply strings_checked; vm_compute; reflexivity]|]).
  apply List.Forall_nil.
Qed.
Lemma file_exists es : exists f, file_of es f.
Proof.
  induction es as [|e es [f IH]] using rev_ind; [exists []; constructor|].
  destruct (record_has_text e) as [t Ht]. exists (f ++ t ++ [LF]). econstructor; [done|]. by exists t.
Qed.
(** The hypotheses of the theorems above hold of these records, and the log is accepted. *)
Example demo_loads : exists s, load_runcounts demo = LOk s /\ runcounts s !! "k" = Some (RFinished 0 1 false).
Proof. eexists. split; [vm_compute; reflexivity|vm_compute; reflexivity]. Qed.
(** The text of one of them. *)
Example r0_text : record_text r0
  (B "{""Ready"":{""time"":{""secs_since_epoch"":1700000000,""nanos_since_epoch"":123456789},""key"":""k"",""runcount"":0,""command"":""\""\\\n\r\u0000\u001f" ++
   ["127"; "195"; "169"; "240"; "159"; "166"; "128"]%char ++ B """,""r"":1}}").
Proof. exists []. split; [done|]. vm_compute. reflexivity. Qed.
Example f0_text : record_text f0
  (B "{""Finished"":{""time"":{""secs_since_epoch"":1700000000,""nanos_since_epoch"":123456789},""key"":""k"",""status"":-2147483648,""values"":[{""a"":"""",""b"":""" ++
   concat (map escape (B awkward)) ++ B """},{}]}}").
Proof.
  exists [[("a", ""); ("b", awkward)]; []]%string. split; [|vm_compute; reflexivity].
  constructor; [|constructor; [done|constructor]]. vm_compute. first [done|apply perm_swap|reflexivity].
Qed.
(** The parser knows more than the printer: white space, other orders, unknown fields, escapes, defaults. *)
Example parse_liberal :
  parse_record (B " { ""Ready"" : {""key"":""k🦀"",""x"":[1.5e3,{},null,true], ""runcount"":7,""command"":"""", ""time"":{""nanos_since_epoch"":5,""secs_since_epoch"":6}} } ")
  = Some (Ready (ReadyEntry (SysTime 6 5) (S_of ["107"; "240"; "159"; "166"; "128"]%char) 7 "" 0)).
Proof. vm_compute. reflexivity. Qed.
Example parse_strict :
  parse_record (B "{""Backref"":{""key"":""a"",""key"":""b""}}") = None /\
  parse_record (B "{""Backref"":{}}") = None /\
  parse_record (B "{""Backref"":{""key"":""a""}} x") = None /\
  parse_record (B "{""Backref"":{""key"":""a""},}") = None.
Proof. vm_compute. repeat split. Qed.

(** C17: it is not true that a log can always be reopened after a crash. *)
Theorem torn_log_always_opens_refuted :
  exists es f g, Forall rust_record es /\ file_of es f /\ begins g f /\
    (exists s, load_runcounts es = LOk s) /\ forall r, load_file g <> FLoaded r.
Proof.
  set (t := print_json (j_entry h0 [])).
  assert (record_text h0 t) as Ht by (by exists []).
  exists [h0], (t ++ [LF]), [LBRACE]. split_and!.
  - pose proof demo_rust as Hd. unfold demo in Hd. apply Forall_cons in Hd as [Hd _]. by constructor.
  - apply (fo_write [] [] h0); [constructor|]. by exists t.
  - eexists. reflexivity.
  - eexists. vm_compute. reflexivity.
  - intros r. vm_compute. discriminate.
Qed.
Print Assumptions torn_log_always_opens_refuted.

(** A crash that loses just the last newline is worse: the log opens, the next session appends its header to the
    unfinished line, and from then on the log cannot be opened, while the snapshot reader silently leaves out both
    records. *)
Theorem lost_newline_detected_refuted :
  exists es f g e f' s s', Forall rust_record es /\ file_of es f /\ begins g f /\ rust_record e /\
    load_file g = FLoaded (LOk s) /\ write_state s e = WOk s' /\ appends e g f' /\
    load_file f' = FNotJson /\ read_file f' = Some [].
Proof.
  set (t := print_json (j_entry h0 [])).
  assert (record_text h0 t) as Ht by (by exists []).
  assert (Forall rust_record [h0]) as Hr.
  { pose proof demo_rust as Hd. unfold demo in Hd. apply Forall_cons in Hd as [Hd _]. by constructor. }
  exists [h0], (t ++ [LF]), t, h0, (t ++ t ++ [LF]).
  eexists _, _. split_and!.
  - done.
  - apply (fo_write [] [] h0); [constructor|]. by exists t.
  - by exists [LF].
  - by apply Forall_cons in Hr as [? _].
  - vm_compute. reflexivity.
  - reflexivity.
  - by exists t.
  - vm_compute. reflexivity.
  - vm_compute. reflexivity.
Qed.
Print Assumptions lost_newline_detected_refuted.
