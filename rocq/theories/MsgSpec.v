(** Vocabulary for the messages between the server and the remote runners. *)
From Verif Require Export MsgModel.

(** The values the Rust types of the fields can hold. *)
Definition is_u32 (n : N) : Prop := n < 2 ^ 32.
Definition is_u64 (n : N) : Prop := n < 2 ^ 64.
Definition is_i32 (z : Z) : Prop := (- 2 ^ 31 <= z < 2 ^ 31)%Z.
(** A Vec of at most usize::MAX elements; a String of UTF-8. *)
Definition is_vec {A} (l : list A) : Prop := N.of_nat (length l) < 2 ^ 64.
Definition is_text (s : string) : Prop := utf8_valid (text_bytes s) = true /\ N.of_nat (String.length s) < 2 ^ 64.
Definition is_map (m : gmap string string) : Prop :=
  N.of_nat (size m) < 2 ^ 64 /\ map_Forall (fun k v => is_text k /\ is_text v) m.

Definition of_option {A} (P : A -> Prop) (o : option A) : Prop := match o with Some a => P a | None => True end.

Definition is_start_request (m : start_request) : Prop := is_u32 (sq_runnertype m) /\ is_text (sq_message m).
Definition is_start_response (m : start_response) : Prop :=
  is_u32 (sp_tx m) /\ is_vec (sp_cmdline m) /\ Forall is_vec (sp_cmdline m)
  /\ of_option (fun p : Z * bytes => is_i32 (fst p) /\ is_vec (snd p)) (sp_fd_input m) /\ is_u64 (sp_ping_ms m).

(** A value of the type of the message. *)
Definition typed (k : kind) : message k -> Prop :=
  match k with
  | KPing => fun m => is_u32 (pi_tx m)
  | KStartRequest => is_start_request
  | KStartResponse => is_start_response
  | KBegunRequest => fun m => is_u32 (bq_tx m) /\ is_text (bq_host m) /\ is_u32 (bq_pid m)
  | KEndRequest => fun m =>
      is_u32 (eq_tx m) /\ is_i32 (eq_status m) /\ is_text (eq_stdout m) /\ is_text (eq_stderr m)
      /\ is_vec (eq_values m) /\ Forall is_map (eq_values m) /\ of_option is_start_request (eq_start m)
  | KEndResponse => fun m => of_option is_start_response (ep_start m)
  end.

(** What is assumed of the LZ4 frame format: what was compressed is decompressed, and a cut frame is an error. *)
Definition lz4 (compress decompress : bytes -> option bytes) : Prop :=
  forall b c, compress b = Some c ->
    decompress c = Some b /\ forall p q, c = p ++ q -> q <> [] -> decompress p = None.

(** [p] with its body cut short. *)
Definition cut (p p' : packet) : Prop :=
  p_type p' = p_type p /\ p_encoding p' = p_encoding p /\ exists q, q <> [] /\ p_body p = p_body p' ++ q.
