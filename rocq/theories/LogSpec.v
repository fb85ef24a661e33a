(** Vocabulary for statements about logs, independent of the code: per-key histories, the
    status of a key in a log, consistency of headers, sessions, the latest attempt. *)
From Verif Require Import LogModel.

Inductive kind := KReady | KStarted | KFinished.

(** [e] is a Ready, Started or Finished record of key [k], and which. *)
Definition record_of (k : string) (e : log_entry) : option kind :=
  match e with
  | Ready r => if String.eqb (r_key r) k then Some KReady else None
  | Started s => if String.eqb (s_key s) k then Some KStarted else None
  | Finished f => if String.eqb (f_key f) k then Some KFinished else None
  | Header _ | Backref _ => None
  end.

(** The kinds of the records of key [k], in order. *)
Definition history (k : string) (es : list log_entry) : list kind :=
  omap (record_of k) es.

(** Attempts: Started comes directly after Ready, Finished directly after Started; Ready may
    come at any time (a new attempt). *)
Inductive attempts : list kind -> Prop :=
| attempts_nil : attempts []
| attempts_ready h : attempts h -> attempts (h ++ [KReady])
| attempts_started h : attempts (h ++ [KReady]) -> attempts (h ++ [KReady; KStarted])
| attempts_finished h :
    attempts (h ++ [KStarted]) -> attempts (h ++ [KStarted; KFinished]).

Definition log_wf (es : list log_entry) : Prop := forall k, attempts (history k es).

Definition no_record (k : string) (es : list log_entry) : Prop :=
  forall e, In e es -> record_of k e = None.

(** What a log says about key [k]: the last Ready record of [k] fixes run count and storage
    root, and what follows it fixes the progress. *)
Definition status_in (es : list log_entry) (k : string) (o : option runcount_status) : Prop :=
  match o with
  | None => no_record k es
  | Some (RReady c sr) =>
      exists pre r post, es = pre ++ Ready r :: post /\
        r_key r = k /\ r_runcount r = c /\ r_storage_root r = sr /\ no_record k post
  | Some (RStarted c sr) =>
      exists pre r mid s post, es = pre ++ Ready r :: mid ++ Started s :: post /\
        r_key r = k /\ r_runcount r = c /\ r_storage_root r = sr /\
        no_record k mid /\ s_key s = k /\ no_record k post
  | Some (RFinished c sr ok) =>
      exists pre r mid s mid' f post,
        es = pre ++ Ready r :: mid ++ Started s :: mid' ++ Finished f :: post /\
        r_key r = k /\ r_runcount r = c /\ r_storage_root r = sr /\
        no_record k mid /\ s_key s = k /\ no_record k mid' /\
        f_key f = k /\ (ok = true <-> f_status f = 0%Z) /\ no_record k post
  end.

(** The last header of a log. *)
Definition last_header (es : list log_entry) (o : option header_entry) : Prop :=
  match o with
  | None => forall h, ~ In (Header h) es
  | Some h => exists pre post, es = pre ++ Header h :: post /\ forall h', ~ In (Header h') post
  end.

(** All headers carry the supported version and one and the same workflow key. *)
Definition headers_ok (es : list log_entry) : Prop :=
  (forall h, In (Header h) es -> h_version h = 4%N) /\
  (forall h h', In (Header h) es -> In (Header h') es -> h_workflow_key h = h_workflow_key h').

Definition is_header (e : log_entry) : Prop := exists h, e = Header h.
Definition is_backref (e : log_entry) : Prop := exists b, e = Backref b.

(** Backref keys of a list of records. *)
Definition backref_keys (es : list log_entry) : list string :=
  omap (fun e => match e with Backref b => Some (b_key b) | _ => None end) es.

Definition without_backrefs (es : list log_entry) : list log_entry :=
  List.filter (fun e => match e with Backref _ => false | _ => true end) es.

(** [last_segment es older hd seg]: [seg] is what follows the last header [hd] of [es]
    ([older] and [hd] are empty if there is no header). *)
Definition last_segment (es older : list log_entry) (hd : option log_entry)
    (seg : list log_entry) : Prop :=
  (forall e, In e seg -> ~ is_header e) /\
  match hd with
  | Some h => is_header h /\ es = older ++ h :: seg
  | None => older = [] /\ es = seg
  end.

(** [in_latest_attempt x later]: the record [x], followed by the records [later], is not
    superseded: no Ready record of the same key comes later. *)
Definition in_latest_attempt (keys : list string) (x : log_entry) (later : list log_entry) : bool :=
  match x with
  | Header _ | Backref _ => false
  | _ =>
      match entry_key x with
      | None => false
      | Some k =>
          existsb (String.eqb k) keys &&
          negb (existsb (fun e => match e with Ready r => String.eqb (r_key r) k | _ => false end)
                        later)
      end
  end.

(** The records of the latest attempt of each of the given keys, in order. *)
Fixpoint latest_attempts (keys : list string) (es : list log_entry) : list log_entry :=
  match es with
  | [] => []
  | x :: later =>
      if in_latest_attempt keys x later then x :: latest_attempts keys later
      else latest_attempts keys later
  end.

(** All other records. *)
Fixpoint superseded (keys : list string) (es : list log_entry) : list log_entry :=
  match es with
  | [] => []
  | x :: later =>
      if in_latest_attempt keys x later then superseded keys later
      else x :: superseded keys later
  end.

(** [e] has a key, and it is the key of some record in [es]. *)
Definition shares_key (e : log_entry) (es : list log_entry) : Prop :=
  exists k e', entry_key e = Some k /\ In e' es /\ entry_key e' = Some k.

(** The same as a test: [x] has the key of some record in [cur]. *)
Definition has_key_of (cur : list log_entry) (x : log_entry) : bool :=
  match entry_key x with
  | None => false
  | Some k =>
      existsb (fun y => match entry_key y with Some k' => String.eqb k k' | None => false end) cur
  end.

Definition head_of (hd : option log_entry) : list log_entry :=
  match hd with Some h => [h] | None => [] end.
