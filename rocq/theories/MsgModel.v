(** Model of the messages between the server and the remote runners: /repo/src/httpinterface.rs, their encoding by the
    postcard crate (1.0.7, with serde 1.0.188) and their transport by /repo/src/http_extensions. Text is the string of
    its UTF-8 bytes. *)
From Coq Require Export String NArith ZArith.
From stdpp Require Export prelude gmap strings.
From Verif Require Export Utf8Model.
Open Scope N_scope.

(** The bytes of a String (httpinterface.rs:93, 107, 115, 116). *)
Definition text_bytes (s : string) : bytes := list_ascii_of_string s.
(** The String of some bytes (93, 107, 115, 116). *)
Definition bytes_text (b : bytes) : string := string_of_list_ascii b.

(** ** postcard: writing *)

(** postcard varint.rs varint_u32, varint_u64, varint_usize; [k] is varint_max: 5 for u32, 10 for u64 and usize. *)
Fixpoint put_varint (k : nat) (v : N) : bytes :=
  match k with
  | O => []
  | S k => if N.ltb v 128 then [ascii_of_N v] else ascii_of_N (N.lor (v mod 256) 128) :: put_varint k (N.shiftr v 7)
  end.
(** A u32 (httpinterface.rs:8, 92, 98, 106, 108, 113), and the number of a variant. *)
Definition put_u32 : N -> bytes := put_varint 5.
(** A u64 or usize (httpinterface.rs:101, and the lengths of 92-117). *)
Definition put_u64 : N -> bytes := put_varint 10.

(** postcard ser/serializer.rs zig_zag_i32: (n << 1) ^ (n >> 31), in arithmetic. *)
Definition zigzag (z : Z) : N := if Z.ltb z 0 then Z.to_N (-2 * z - 1) else Z.to_N (2 * z).
(** An i32 (httpinterface.rs:100, 114). *)
Definition put_i32 (z : Z) : bytes := put_u32 (zigzag z).

(** serialize_str: the length as usize, the bytes. *)
Definition put_str (s : string) : bytes := put_u64 (N.of_nat (String.length s)) ++ text_bytes s.
(** serialize_seq: the length, the elements. *)
Definition put_seq {A} (put : A -> bytes) (l : list A) : bytes :=
  put_u64 (N.of_nat (length l)) ++ List.concat (map put l).
(** A u8 is itself; Vec<u8> is a sequence of them. *)
Definition put_u8s (b : bytes) : bytes := put_seq (fun c => [c]) b.
(** serialize_none, serialize_some *)
Definition put_option {A} (put : A -> bytes) (o : option A) : bytes :=
  match o with None => [ascii_of_N 0] | Some a => ascii_of_N 1 :: put a end.
(** serde's impl for OsStr on Unix: serialize_newtype_variant("OsString", 0, "Unix", bytes). *)
Definition put_os (b : bytes) : bytes := put_u32 0 ++ put_u8s b.
(** serialize_map, in the order in which the HashMap gives its entries. httpinterface.rs:117. *)
Definition put_pairs (l : list (string * string)) : bytes := put_seq (fun p => put_str (fst p) ++ put_str (snd p)) l.

(** ** postcard: reading. A reader gives the value and the rest; [None] is an error. *)
(** Reached from axum.rs:102 and reqwest.rs:63. *)
Definition reader (A : Type) : Type := bytes -> option (A * bytes).

(** One reader after another; models no code (the sequence of reads in the derived Deserialize of httpinterface.rs:6-124). *)
Definition bind {A B} (r : reader A) (f : A -> reader B) : reader B :=
  fun s => match r s with Some (a, s') => f a s' | None => None end.
(** The end of a sequence; models no code (httpinterface.rs:6-124). *)
Definition ret {A} (a : A) : reader A := fun s => Some (a, s).
Notation "x <-- r ;; k" := (bind r (fun x => k)) (at level 60, r at next level, right associativity).

(** postcard de/flavors Slice::pop (httpinterface.rs:100). *)
Definition get_u8 : reader ascii := fun s => match s with c :: s => Some (c, s) | [] => None end.

(** postcard de/deserializer.rs try_take_varint_u32 and the like: [k] bytes are left, [i] were read, [last] is
    max_of_last_byte: 15 for u32, 1 for u64. A bit shifted out of the type occurs only where an error follows. *)
Fixpoint get_varint (last : N) (k i : nat) (out : N) : reader N :=
  fun s =>
    match k with
    | O => None
    | S k =>
        match s with
        | [] => None
        | c :: s =>
            let val := code c in
            let out := N.lor out (N.shiftl (N.land val 127) (N.of_nat (7 * i))) in
            if N.eqb (N.land val 128) 0 then
              if Nat.eqb k 0 && N.ltb last val then None else Some (out, s)
            else get_varint last k (S i) out s
        end
    end.
(** A u32 (httpinterface.rs:8, 92, 98, 106, 108, 113). *)
Definition get_u32 : reader N := get_varint 15 5 0 0.
(** A u64 or usize (httpinterface.rs:101, and the lengths of 92-117). *)
Definition get_u64 : reader N := get_varint 1 10 0 0.

(** de_zig_zag_i32: (n >> 1) ^ -(n & 1), in arithmetic. *)
Definition unzigzag (n : N) : Z := if N.even n then Z.of_N (n / 2) else (- Z.of_N (n / 2) - 1)%Z.
(** An i32 (httpinterface.rs:100, 114). *)
Definition get_i32 : reader Z := n <-- get_u32 ;; ret (unzigzag n).

(** try_take_n *)
Definition get_n (n : N) : reader bytes :=
  fun s => if N.ltb (N.of_nat (length s)) n then None else Some (take (N.to_nat n) s, drop (N.to_nat n) s).
(** deserialize_str *)
Definition get_str : reader string :=
  n <-- get_u64 ;; b <-- get_n n ;; (fun s => if utf8_valid b then Some (bytes_text b, s) else None).
(** deserialize_seq *)
Fixpoint get_times {A} (r : reader A) (n : nat) : reader (list A) :=
  match n with O => ret [] | S n => a <-- r ;; l <-- get_times r n ;; ret (a :: l) end.
Definition get_seq {A} (r : reader A) : reader (list A) := n <-- get_u64 ;; get_times r (N.to_nat n).
Definition get_u8s : reader bytes := get_seq get_u8.
(** deserialize_option *)
Definition get_option {A} (r : reader A) : reader (option A) :=
  c <-- get_u8 ;; (if N.eqb (code c) 0 then ret None else if N.eqb (code c) 1 then a <-- r ;; ret (Some a) else fun _ => None).
(** serde's impl for OsString on Unix: variant 1 is Windows and an error, others are unknown. *)
Definition get_os : reader bytes := v <-- get_u32 ;; if N.eqb v 0 then get_u8s else fun _ => None.
(** HashMap: a later entry replaces an earlier one. httpinterface.rs:117. *)
Definition to_map (l : list (string * string)) : gmap string string :=
  fold_left (fun m p => <[fst p := snd p]> m) l ∅.
(** deserialize_map (httpinterface.rs:117). *)
Definition get_map : reader (gmap string string) :=
  l <-- get_seq (k <-- get_str ;; v <-- get_str ;; ret (k, v)) ;; ret (to_map l).

(** postcard::from_bytes: what follows the value is ignored. axum.rs:102, reqwest.rs:63. *)
Definition from_bytes {A} (r : reader A) (b : bytes) : option A := match r b with Some (a, _) => Some a | None => None end.

(** ** The messages, httpinterface.rs *)
(** 6-9 *)
Record ping_msg := Ping { pi_tx : N }.
(** 90-94 *)
Record start_request := StartRequest { sq_runnertype : N; sq_message : string }.
(** 96-102 *)
Record start_response := StartResponse { sp_tx : N; sp_cmdline : list bytes; sp_fd_input : option (Z * bytes); sp_ping_ms : N }.
(** 104-109 *)
Record begun_request := BegunRequest { bq_tx : N; bq_host : string; bq_pid : N }.
(** 111-119 *)
Record end_request := EndRequest {
  eq_tx : N; eq_status : Z; eq_stdout : string; eq_stderr : string;
  eq_values : list (gmap string string); eq_start : option start_request
}.
(** 121-124 *)
Record end_response := EndResponse { ep_start : option start_response }.

(** The derived Serialize of httpinterface.rs:6-9, *)
Definition put_ping (m : ping_msg) : bytes := put_u32 (pi_tx m).
(** of 90-94, *)
Definition put_start_request (m : start_request) : bytes := put_u32 (sq_runnertype m) ++ put_str (sq_message m).
(** of 96-102, *)
Definition put_start_response (m : start_response) : bytes :=
  put_u32 (sp_tx m) ++ put_seq put_os (sp_cmdline m)
  ++ put_option (fun p : Z * bytes => put_i32 (fst p) ++ put_u8s (snd p)) (sp_fd_input m) ++ put_u64 (sp_ping_ms m).
(** of 104-109, *)
Definition put_begun_request (m : begun_request) : bytes := put_u32 (bq_tx m) ++ put_str (bq_host m) ++ put_u32 (bq_pid m).
(** [values]: the entries of the maps in the order in which they are written. Of 111-119. *)
Definition put_end_request (m : end_request) (values : list (list (string * string))) : bytes :=
  put_u32 (eq_tx m) ++ put_i32 (eq_status m) ++ put_str (eq_stdout m) ++ put_str (eq_stderr m)
  ++ put_seq put_pairs values ++ put_option put_start_request (eq_start m).
(** of 121-124. *)
Definition put_end_response (m : end_response) : bytes := put_option put_start_response (ep_start m).

(** The derived Deserialize of httpinterface.rs:6-9, *)
Definition get_ping : reader ping_msg := tx <-- get_u32 ;; ret (Ping tx).
(** of 90-94, *)
Definition get_start_request : reader start_request := t <-- get_u32 ;; s <-- get_str ;; ret (StartRequest t s).
(** of 96-102, *)
Definition get_start_response : reader start_response :=
  tx <-- get_u32 ;; cmd <-- get_seq get_os ;; fd <-- get_option (z <-- get_i32 ;; b <-- get_u8s ;; ret (z, b)) ;;
  p <-- get_u64 ;; ret (StartResponse tx cmd fd p).
(** of 104-109, *)
Definition get_begun_request : reader begun_request :=
  tx <-- get_u32 ;; h <-- get_str ;; p <-- get_u32 ;; ret (BegunRequest tx h p).
(** of 111-119, *)
Definition get_end_request : reader end_request :=
  tx <-- get_u32 ;; z <-- get_i32 ;; o <-- get_str ;; e <-- get_str ;; v <-- get_seq get_map ;;
  n <-- get_option get_start_request ;; ret (EndRequest tx z o e v n).
(** of 121-124. *)
Definition get_end_response : reader end_response := s <-- get_option get_start_response ;; ret (EndResponse s).

(** The messages sent with postcard. The types T of server.rs:243, 311, 312, 406, 445, 446. *)
Inductive kind := KPing | KStartRequest | KStartResponse | KBegunRequest | KEndRequest | KEndResponse.
(** httpinterface.rs:6-9, 90-124. *)
Definition message (k : kind) : Type :=
  match k with
  | KPing => ping_msg | KStartRequest => start_request | KStartResponse => start_response
  | KBegunRequest => begun_request | KEndRequest => end_request | KEndResponse => end_response
  end.
(** postcard::to_allocvec: a HashMap is written in some order. axum.rs:112, reqwest.rs:26. *)
Definition encodes (k : kind) : message k -> bytes -> Prop :=
  match k with
  | KPing => fun m b => b = put_ping m
  | KStartRequest => fun m b => b = put_start_request m
  | KStartResponse => fun m b => b = put_start_response m
  | KBegunRequest => fun m b => b = put_begun_request m
  | KEndRequest => fun m b =>
      exists values, Forall2 (fun l (x : gmap string string) => l ≡ₚ map_to_list x) values (eq_values m) /\ b = put_end_request m values
  | KEndResponse => fun m b => b = put_end_response m
  end.
(** httpinterface.rs:6-9, 90-124. *)
Definition get_message (k : kind) : reader (message k) :=
  match k with
  | KPing => get_ping | KStartRequest => get_start_request | KStartResponse => get_start_response
  | KBegunRequest => get_begun_request | KEndRequest => get_end_request | KEndResponse => get_end_response
  end.
(** axum.rs:102, reqwest.rs:63. *)
Definition decode (k : kind) (b : bytes) : option (message k) := from_bytes (get_message k) b.

(** ** Transport, http_extensions *)
(** The two headers and the body of a request or response. axum.rs:86-88, 114-127; reqwest.rs:36, 48-50. *)
Record packet := Packet { p_type : option string; p_encoding : option string; p_body : bytes }.

(** common.rs:7 *)
Definition SMALL_REQUEST_SIZE_NO_COMPRESSION : N := 128.
(** axum-core 0.3.4 DEFAULT_LIMIT, which applies to Bytes::from_request (axum.rs:88); server.rs sets no other. *)
Definition BODY_LIMIT : N := 2097152.

(** common.rs:20-29 and 31-58 *)
Inductive serde_type := TPostcard | TJson | TUnknown | TUnspecified.
(** common.rs:26-30 *)
Inductive compression_type := ZLz4 | ZUnknown | ZNone.
(** common.rs:45-58 *)
Definition get_content_type (p : packet) : serde_type :=
  match p_type p with
  | Some v => if String.eqb v "application/postcard" then TPostcard else if String.eqb v "application/json" then TJson else TUnknown
  | None => TUnspecified
  end.
(** common.rs:32-43 *)
Definition get_compression (p : packet) : compression_type :=
  match p_encoding p with
  | Some v => if String.eqb v "lz4" then ZLz4 else ZUnknown
  | None => ZNone
  end.

(** Why a packet is refused. axum.rs:27-65; reqwest.rs:50-66 returns an error in the same cases. *)
Inductive rejection := BytesRejection | DecompressionError | PostcardError | JsonError | UnknownContentType | UnknownCompression | UnspecifiedContentType.

Section transport.
  (** lz4f::compress_to_vec and lz4f::decompress_to_vec; [None] is an error. *)
  Context (compress decompress : bytes -> option bytes).
  (** serde_json::from_slice *)
  Context (from_json : forall k, bytes -> option (message k)).

  (** reqwest.rs:20-37 RequestBuilderExt::postcard; [bytes] is the encoded message. *)
  Definition send_request (bytes : bytes) : option packet :=
    if N.ltb SMALL_REQUEST_SIZE_NO_COMPRESSION (N.of_nat (length bytes)) then
      match compress bytes with
      | Some c => Some (Packet (Some "application/postcard"%string) (Some "lz4"%string) c)
      | None => None
      end
    else Some (Packet (Some "application/postcard"%string) None bytes).

  (** axum.rs:111-135 into_response; [None] is the response with status 500. *)
  Definition send_response (bytes : bytes) : option packet :=
    if N.ltb (N.of_nat (length bytes)) SMALL_REQUEST_SIZE_NO_COMPRESSION then
      Some (Packet (Some "application/postcard"%string) None bytes)
    else
      match compress bytes with
      | Some c => Some (Packet (Some "application/postcard"%string) (Some "lz4"%string) c)
      | None => None
      end.

  (** axum.rs:89-106 and reqwest.rs:52-67, after the body has been received *)
  Definition receive (k : kind) (p : packet) : message k + rejection :=
    match
      match get_compression p with
      | ZLz4 => match decompress (p_body p) with Some b => inl b | None => inr DecompressionError end
      | ZNone => inl (p_body p)
      | ZUnknown => inr UnknownCompression
      end
    with
    | inr e => inr e
    | inl decomp =>
        match get_content_type p with
        | TPostcard => match decode k decomp with Some m => inl m | None => inr PostcardError end
        | TJson => match from_json k decomp with Some m => inl m | None => inr JsonError end
        | TUnknown => inr UnknownContentType
        | TUnspecified => inr UnspecifiedContentType
        end
    end.

  (** axum.rs:85-107 from_request: a body over the limit is refused first. *)
  Definition server_receives (k : kind) (p : packet) : message k + rejection :=
    if N.ltb BODY_LIMIT (N.of_nat (length (p_body p))) then inr BytesRejection else receive k p.
  (** reqwest.rs:47-68: no limit. *)
  Definition runner_receives (k : kind) (p : packet) : message k + rejection := receive k p.
End transport.
