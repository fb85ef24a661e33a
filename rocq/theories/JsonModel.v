(** The text of log records: what serde_json 1.0.107 (Cargo.lock) writes at /repo/src/logfile2.rs:274 and accepts at
    315 and 584, and the reading of the log file line by line (304-319, 571-593). The derived Serialize and
    Deserialize instances are those of the structs of logfile2.rs:18-76. *)
From Coq Require Export Decimal DecimalN.
From Verif Require Export LogModel Utf8Model.

(** The bytes of a string literal; models no code, used for the field names of logfile2.rs:18-76. *)
Definition B (s : string) : bytes := list_ascii_of_string s.
(** The String of some bytes (logfile2.rs:31-66, fields of type String). *)
Definition S_of (b : bytes) : string := string_of_list_ascii b.

(** The characters of JSON texts as serde_json 1.0.107 writes (logfile2.rs:274) and reads them (315, 584): the double quote, *)
Definition DQ : ascii := "034".
(** the backslash (same lines), *)
Definition BSL : ascii := "092".
(** the newline that ends a record (logfile2.rs:275, 313), *)
Definition LF : ascii := "010".
(** the carriage return dropped with it (logfile2.rs:313), *)
Definition CRET : ascii := "013".
(** the comma (CompactFormatter, logfile2.rs:274), *)
Definition COMMA : ascii := ",".
(** the colon (274), *)
Definition COLON : ascii := ":".
(** the braces of an object (274), *)
Definition LBRACE : ascii := "{".
(** (274), *)
Definition RBRACE : ascii := "}".
(** the brackets of an array (274), *)
Definition LBRACK : ascii := "[".
(** (274), *)
Definition RBRACK : ascii := "]".
(** and the minus sign of a negative number (274). *)
Definition MINUS : ascii := "-".

(** A JSON document. Integers keep their value; a number with a fraction or an exponent (and -0, which serde_json
    reads as a float) only its being one: no field of a record accepts it. Objects keep the order and the duplicates
    of their members. *)
Inductive json :=
| JNull
| JBool (b : bool)
| JInt (z : Z)
| JFloat
| JStr (s : bytes)
| JArr (l : list json)
| JObj (l : list (bytes * json)).

(** ** Writing: serde_json::to_writer with the CompactFormatter *)

(** serde_json ser.rs HEX_DIGITS, used for control characters (logfile2.rs:274). *)
Definition hex_digit (n : N) : ascii := if N.ltb n 10 then ascii_of_N (48 + n) else ascii_of_N (87 + n).

(** serde_json ser.rs ESCAPE table and write_char_escape. Reached from logfile2.rs:274. *)
Definition escape (c : ascii) : bytes :=
  let n := code c in
  if N.eqb n 34 then [BSL; DQ]
  else if N.eqb n 92 then [BSL; BSL]
  else if N.eqb n 8 then [BSL; "b"%char]
  else if N.eqb n 9 then [BSL; "t"%char]
  else if N.eqb n 10 then [BSL; "n"%char]
  else if N.eqb n 12 then [BSL; "f"%char]
  else if N.eqb n 13 then [BSL; "r"%char]
  else if N.ltb n 32 then [BSL; "u"%char; "0"%char; "0"%char; hex_digit (n / 16); hex_digit (n mod 16)]
  else [c].

(** serde_json ser.rs format_escaped_str: a string in quotes (logfile2.rs:274). *)
Definition print_string (s : bytes) : bytes := DQ :: concat (map escape s) ++ [DQ].

(** itoa: decimal digits without leading zeros. Reached from logfile2.rs:274. *)
Fixpoint print_uint (d : Decimal.uint) : bytes :=
  match d with
  | Nil => []
  | D0 d => "0"%char :: print_uint d
  | D1 d => "1"%char :: print_uint d
  | D2 d => "2"%char :: print_uint d
  | D3 d => "3"%char :: print_uint d
  | D4 d => "4"%char :: print_uint d
  | D5 d => "5"%char :: print_uint d
  | D6 d => "6"%char :: print_uint d
  | D7 d => "7"%char :: print_uint d
  | D8 d => "8"%char :: print_uint d
  | D9 d => "9"%char :: print_uint d
  end.

(** A number of logfile2.rs:29-68 in decimal (itoa, reached from 274). *)
Definition print_int (z : Z) : bytes :=
  if Z.ltb z 0 then MINUS :: print_uint (N.to_uint (Z.to_N (- z))) else print_uint (N.to_uint (Z.to_N z)).

(** Elements separated by commas. serde_json ser.rs begin_array_value and begin_object_key (logfile2.rs:274). *)
Fixpoint commas (l : list bytes) : bytes :=
  match l with
  | [] => []
  | [x] => x
  | x :: r => x ++ COMMA :: commas r
  end.

(** Floats are never written; [JFloat] has an arbitrary text here. serde_json::to_writer, logfile2.rs:274. *)
Fixpoint print_json (j : json) : bytes :=
  match j with
  | JNull => B "null"
  | JBool true => B "true"
  | JBool false => B "false"
  | JInt z => print_int z
  | JFloat => B "0.5"
  | JStr s => print_string s
  | JArr l => LBRACK :: commas (map print_json l) ++ [RBRACK]
  | JObj l => LBRACE :: commas (map (fun p => print_string (fst p) ++ COLON :: print_json (snd p)) l) ++ [RBRACE]
  end.

(** Derived Serialize: a struct is an object with its fields in the order of declaration. *)
Definition j_str (s : string) : json := JStr (B s).
Definition j_num (n : N) : json := JInt (Z.of_N n).
Definition j_strs (l : list string) : json := JArr (map j_str l).
(** serde's impl of Serialize for SystemTime (a time before 1970 is an error and is not modelled). *)
Definition j_time (t : systime) : json :=
  JObj [(B "secs_since_epoch", j_num (secs t)); (B "nanos_since_epoch", j_num (nanos t))].
(** A HashMap is written in the order of its iteration, which is arbitrary: the order is an argument. logfile2.rs:15, 70. *)
Definition j_map (m : list (string * string)) : json := JObj (map (fun p => (B (fst p), j_str (snd p))) m).

(** logfile2.rs:18-76; [vs] lists the members of each of the maps of a Finished record in some order. Paths are
    UTF-8 text (writing any other path is an error). *)
Definition j_entry (e : log_entry) (vs : list (list (string * string))) : json :=
  match e with
  | Header h => JObj [(B "Header", JObj
      [(B "version", j_num (h_version h)); (B "time", j_time (h_time h)); (B "user", j_str (h_user h));
       (B "hostname", j_str (h_hostname h)); (B "workflow_key", j_str (h_workflow_key h));
       (B "cmdline", j_strs (h_cmdline h)); (B "workdir", j_str (h_workdir h)); (B "pid", j_num (h_pid h));
       (B "storage_roots", j_strs (h_storage_roots h))])]
  | Ready r => JObj [(B "Ready", JObj
      [(B "time", j_time (r_time r)); (B "key", j_str (r_key r)); (B "runcount", j_num (r_runcount r));
       (B "command", j_str (r_command r)); (B "r", j_num (r_storage_root r))])]
  | Started s => JObj [(B "Started", JObj
      [(B "time", j_time (s_time s)); (B "key", j_str (s_key s)); (B "host", j_str (s_host s));
       (B "pid", j_num (s_pid s)); (B "slurm_jobid", j_str (s_slurm_jobid s))])]
  | Finished f => JObj [(B "Finished", JObj
      [(B "time", j_time (f_time f)); (B "key", j_str (f_key f)); (B "status", JInt (f_status f));
       (B "values", JArr (map j_map vs))])]
  | Backref b => JObj [(B "Backref", JObj [(B "key", j_str (b_key b))])]
  end.

(** [vs] are the maps of [e], each in some order. It says what is arbitrary in logfile2.rs:70 as written at 274. *)
Definition in_some_order (e : log_entry) (vs : list (list (string * string))) : Prop :=
  match e with
  | Finished f => Forall2 (fun m l => l ≡ₚ map_to_list m) (f_values f) vs
  | _ => vs = []
  end.

(** logfile2.rs:274: [t] is a text that to_writer may produce for [e]. *)
Definition record_text (e : log_entry) (t : bytes) : Prop :=
  exists vs, in_some_order e vs /\ t = print_json (j_entry e vs).

(** ** Reading: serde_json::from_str *)

(** serde_json de.rs parse_whitespace (logfile2.rs:315, 584): the four white space characters, *)
Definition json_space (c : ascii) : bool :=
  let n := code c in N.eqb n 32 || N.eqb n 10 || N.eqb n 9 || N.eqb n 13.
(** and the skipping of them (315, 584). *)
Fixpoint skip_space (s : bytes) : bytes :=
  match s with [] => [] | c :: r => if json_space c then skip_space r else s end.

(** serde_json read.rs decode_hex_val (logfile2.rs:315, 584). *)
Definition hex_value (c : ascii) : option N :=
  let n := code c in
  if N.leb 48 n && N.leb n 57 then Some (n - 48)%N
  else if N.leb 97 n && N.leb n 102 then Some (n - 87)%N
  else if N.leb 65 n && N.leb n 70 then Some (n - 55)%N
  else None.
(** serde_json read.rs decode_hex_escape (logfile2.rs:315, 584). *)
Definition hex4 (a b c d : ascii) : option N :=
  match hex_value a, hex_value b, hex_value c, hex_value d with
  | Some a, Some b, Some c, Some d => Some (((a * 16 + b) * 16 + c) * 16 + d)%N
  | _, _, _, _ => None
  end.

(** char::encode_utf8 *)
Definition encode_char (c : N) : bytes :=
  if N.ltb c 128 then [ascii_of_N c]
  else if N.ltb c 2048 then [ascii_of_N (192 + c / 64); ascii_of_N (128 + c mod 64)]
  else if N.ltb c 65536 then
    [ascii_of_N (224 + c / 4096); ascii_of_N (128 + c / 64 mod 64); ascii_of_N (128 + c mod 64)]
  else [ascii_of_N (240 + c / 262144); ascii_of_N (128 + c / 4096 mod 64); ascii_of_N (128 + c / 64 mod 64);
        ascii_of_N (128 + c mod 64)].

(** serde_json read.rs parse_escape, the escapes of one character. Reached from logfile2.rs:315, 584. *)
Definition simple_escape (c : ascii) : option ascii :=
  let n := code c in
  if N.eqb n 34 then Some DQ
  else if N.eqb n 92 then Some BSL
  else if N.eqb n 47 then Some "/"%char
  else if N.eqb n 98 then Some "008"%char
  else if N.eqb n 102 then Some "012"%char
  else if N.eqb n 110 then Some LF
  else if N.eqb n 114 then Some CRET
  else if N.eqb n 116 then Some "009"%char
  else None.

(** Puts bytes before what has been read; models no code (a helper of [read_string], logfile2.rs:315). *)
Definition prepend (p : bytes) (o : option (bytes * bytes)) : option (bytes * bytes) :=
  match o with Some (s, r) => Some (p ++ s, r) | None => None end.

(** serde_json read.rs parse_str and parse_escape, after the opening quote: the string and what follows it.
    A raw control character, an unknown escape and a lone surrogate are errors. Reached from logfile2.rs:315, 584. *)
Fixpoint read_string (s : bytes) : option (bytes * bytes) :=
  match s with
  | [] => None
  | c :: r =>
      if Ascii.eqb c DQ then Some ([], r)
      else if Ascii.eqb c BSL then
        match r with
        | [] => None
        | e :: r1 =>
            if Ascii.eqb e "u" then
              match r1 with
              | a1 :: a2 :: a3 :: a4 :: r2 =>
                  match hex4 a1 a2 a3 a4 with
                  | None => None
                  | Some n =>
                      if N.leb 56320 n && N.leb n 57343 then None
                      else if N.leb 55296 n && N.leb n 56319 then
                        match r2 with
                        | b :: u :: a5 :: a6 :: a7 :: a8 :: r3 =>
                            if Ascii.eqb b BSL && Ascii.eqb u "u" then
                              match hex4 a5 a6 a7 a8 with
                              | Some n2 =>
                                  if N.leb 56320 n2 && N.leb n2 57343
                                  then prepend (encode_char (65536 + (n - 55296) * 1024 + (n2 - 56320))%N) (read_string r3)
                                  else None
                              | None => None
                              end
                            else None
                        | _ => None
                        end
                      else prepend (encode_char n) (read_string r2)
                  end
              | _ => None
              end
            else
              match simple_escape e with
              | Some d => prepend [d] (read_string r1)
              | None => None
              end
        end
      else if N.ltb (code c) 32 then None
      else prepend [c] (read_string r)
  end.

(** The longest run of digits. One digit (serde_json de.rs parse_integer, logfile2.rs:315, 584). *)
Definition digit (c : ascii) : option (Decimal.uint -> Decimal.uint) :=
  match N.sub (code c) 48 with
  | 0 => if N.eqb (code c) 48 then Some D0 else None
  | 1 => Some D1 | 2 => Some D2 | 3 => Some D3 | 4 => Some D4 | 5 => Some D5
  | 6 => Some D6 | 7 => Some D7 | 8 => Some D8 | 9 => Some D9
  | _ => None
  end%N.
(** Reached from logfile2.rs:315, 584. *)
Fixpoint scan_digits (s : bytes) : Decimal.uint * bytes :=
  match s with
  | [] => (Nil, [])
  | c :: r => match digit c with
              | Some D => let '(u, r') := scan_digits r in (D u, r')
              | None => (Nil, s)
              end
  end.

(** serde_json de.rs parse_decimal and parse_exponent: what follows the integer part. The result says whether the
    number is a float, and the rest. Reached from logfile2.rs:315, 584. *)
Definition scan_exponent (s : bytes) : option bytes :=
  match s with
  | c :: r =>
      let r := if Ascii.eqb c "+" || Ascii.eqb c "-" then r else s in
      match scan_digits r with (Nil, _) => None | (_, r') => Some r' end
  | [] => None
  end.
(** The letter before an exponent (de.rs parse_number, logfile2.rs:315, 584). *)
Definition is_e (c : ascii) : bool := Ascii.eqb c "e" || Ascii.eqb c "E".
(** de.rs parse_number and parse_decimal (logfile2.rs:315, 584). *)
Definition scan_fraction (s : bytes) : option (bool * bytes) :=
  match s with
  | c :: r =>
      if Ascii.eqb c "." then
        match scan_digits r with
        | (Nil, _) => None
        | (_, c' :: r') => if is_e c' then option_map (fun x => (true, x)) (scan_exponent r') else Some (true, c' :: r')
        | (_, []) => Some (true, [])
        end
      else if is_e c then option_map (fun x => (true, x)) (scan_exponent r)
      else Some (false, s)
  | [] => Some (false, [])
  end.

(** serde_json de.rs parse_any_number / parse_integer: no leading zeros; -0 is a float. (A float too large for f64
    is an error in serde_json and accepted here.) *)
Definition leading_zero (u : Decimal.uint) : bool :=
  match u with D0 Nil => false | D0 _ => true | _ => false end.
(** de.rs parse_any_number (logfile2.rs:315, 584). *)
Definition read_number (neg : bool) (s : bytes) : option (json * bytes) :=
  let '(u, r) := scan_digits s in
  match u with
  | Nil => None
  | _ =>
      if leading_zero u then None
      else match scan_fraction r with
           | None => None
           | Some (true, r') => Some (JFloat, r')
           | Some (false, r') =>
               let n := N.of_uint u in
               if neg then if N.eqb n 0 then Some (JFloat, r') else Some (JInt (- Z.of_N n), r')
               else Some (JInt (Z.of_N n), r')
           end
  end.

(** The rest of a text after a prefix; models no code (a helper of [literal], logfile2.rs:315). *)
Fixpoint strip (p s : bytes) : option bytes :=
  match p, s with
  | [], _ => Some s
  | a :: p, b :: s => if Ascii.eqb a b then strip p s else None
  | _, _ => None
  end.
(** de.rs parse_ident: null, true and false (logfile2.rs:315, 584). *)
Definition literal (p : bytes) (j : json) (s : bytes) : option (json * bytes) :=
  match strip p s with Some r => Some (j, r) | None => None end.

(** serde_json de.rs deserialize_any, SeqAccess and MapAccess. The first argument bounds the recursion and is never
    used up in [from_str]. (serde_json also refuses documents nested more than 127 deep.) *)
Fixpoint read_value (fuel : nat) (s : bytes) {struct fuel} : option (json * bytes) :=
  match fuel with
  | 0 => None
  | S fuel =>
      match skip_space s with
      | [] => None
      | c :: r =>
          if Ascii.eqb c LBRACE then
            match skip_space r with
            | [] => None
            | c' :: r' =>
                if Ascii.eqb c' RBRACE then Some (JObj [], r')
                else match read_members fuel r with Some (l, r) => Some (JObj l, r) | None => None end
            end
          else if Ascii.eqb c LBRACK then
            match skip_space r with
            | [] => None
            | c' :: r' =>
                if Ascii.eqb c' RBRACK then Some (JArr [], r')
                else match read_elements fuel r with Some (l, r) => Some (JArr l, r) | None => None end
            end
          else if Ascii.eqb c DQ then
            match read_string r with Some (t, r) => Some (JStr t, r) | None => None end
          else if Ascii.eqb c "n" then literal (B "ull") JNull r
          else if Ascii.eqb c "t" then literal (B "rue") (JBool true) r
          else if Ascii.eqb c "f" then literal (B "alse") (JBool false) r
          else if Ascii.eqb c MINUS then read_number true r
          else read_number false (c :: r)
      end
  end
with read_members (fuel : nat) (s : bytes) {struct fuel} : option (list (bytes * json) * bytes) :=
  match fuel with
  | 0 => None
  | S fuel =>
      match skip_space s with
      | [] => None
      | q :: r =>
          if Ascii.eqb q DQ then
            match read_string r with
            | None => None
            | Some (k, r1) =>
                match skip_space r1 with
                | [] => None
                | d :: r2 =>
                    if Ascii.eqb d COLON then
                      match read_value fuel r2 with
                      | None => None
                      | Some (v, r3) =>
                          match skip_space r3 with
                          | [] => None
                          | d' :: r4 =>
                              if Ascii.eqb d' RBRACE then Some ([(k, v)], r4)
                              else if Ascii.eqb d' COMMA then
                                match read_members fuel r4 with
                                | Some (l, r5) => Some ((k, v) :: l, r5)
                                | None => None
                                end
                              else None
                          end
                      end
                    else None
                end
            end
          else None
      end
  end
with read_elements (fuel : nat) (s : bytes) {struct fuel} : option (list json * bytes) :=
  match fuel with
  | 0 => None
  | S fuel =>
      match read_value fuel s with
      | None => None
      | Some (v, r3) =>
          match skip_space r3 with
          | [] => None
          | d' :: r4 =>
              if Ascii.eqb d' RBRACK then Some ([v], r4)
              else if Ascii.eqb d' COMMA then
                match read_elements fuel r4 with
                | Some (l, r5) => Some (v :: l, r5)
                | None => None
                end
              else None
          end
      end
  end.

(** serde_json::from_str, the document: one value, then only white space. logfile2.rs:315, 584. *)
Definition read_json (s : bytes) : option json :=
  match read_value (2 * length s + 2) s with
  | Some (j, r) => match skip_space r with [] => Some j | _ => None end
  | None => None
  end.

(** ** Derived Deserialize *)

(** A field of a struct: absent, present once, or twice (an error). The derived Deserialize of the structs of logfile2.rs:27-76. *)
Definition field (k : string) (o : list (bytes * json)) : option (option json) :=
  match List.filter (fun p => bool_decide (fst p = B k)) o with
  | [] => Some None
  | [(_, v)] => Some (Some v)
  | _ => None
  end.
(** A field without a default (logfile2.rs:29-36, 44-47, 55-58, 66-68, 75). *)
Definition required {A} (k : string) (dec : json -> option A) (o : list (bytes * json)) : option A :=
  match field k o with Some (Some v) => dec v | _ => None end.
(** #[serde(default)]. logfile2.rs:38, 49, 60, 69. *)
Definition defaulted {A} (k : string) (d : A) (dec : json -> option A) (o : list (bytes * json)) : option A :=
  match field k o with Some (Some v) => dec v | Some None => Some d | None => None end.

(** A String (logfile2.rs:31-35, 45, 47, 56, 57, 61, 67, 75). *)
Definition d_str (j : json) : option string := match j with JStr s => Some (S_of s) | _ => None end.
(** An unsigned integer up to a maximum (serde impls.rs; logfile2.rs:29, 36, 46, 50, 58). *)
Definition d_unsigned (max : N) (j : json) : option N :=
  match j with
  | JInt z => if Z.leb 0 z && Z.leb z (Z.of_N max) then Some (Z.to_N z) else None
  | _ => None
  end.
(** u32::MAX (logfile2.rs:29). *)
Definition U32_MAX : N := 4294967295.
(** u64::MAX (the seconds of logfile2.rs:30). *)
Definition U64_MAX : N := 18446744073709551615.
(** i64::MAX (the seconds a SystemTime holds, logfile2.rs:30). *)
Definition I64_MAX : N := 9223372036854775807.
(** A u32 (logfile2.rs:29, 36, 46, 50, 58). *)
Definition d_u32 := d_unsigned U32_MAX.
(** An i32 (logfile2.rs:68). *)
Definition d_i32 (j : json) : option Z :=
  match j with
  | JInt z => if Z.leb (-2147483648) z && Z.leb z 2147483647 then Some z else None
  | _ => None
  end.
(** All elements or an error; models no code (a helper of [d_list], logfile2.rs:34). *)
Fixpoint all_some {A B} (f : A -> option B) (l : list A) : option (list B) :=
  match l with
  | [] => Some []
  | x :: l => match f x, all_some f l with Some y, Some r => Some (y :: r) | _, _ => None end
  end.
(** A Vec (logfile2.rs:34, 39, 70). *)
Definition d_list {A} (dec : json -> option A) (j : json) : option (list A) :=
  match j with JArr l => all_some dec l | _ => None end.
(** The object a struct is read from (logfile2.rs:27-76). *)
Definition d_obj (j : json) : option (list (bytes * json)) := match j with JObj o => Some o | _ => None end.

(** HashMap<String, String>: the last of the members with one name. logfile2.rs:15, 70. *)
Definition d_map (j : json) : option (gmap string string) :=
  match j with
  | JObj o =>
      match all_some (fun p => option_map (pair (S_of (fst p))) (d_str (snd p))) o with
      | Some l => Some (fold_left (fun m p => <[fst p := snd p]> m) l ∅)
      | None => None
      end
  | _ => None
  end.

(** serde's impl of Deserialize for SystemTime: no other fields; nanoseconds carry over; the sum must fit. logfile2.rs:30, 44, 55, 66. *)
Definition d_time (j : json) : option systime :=
  match j with
  | JObj o =>
      if forallb (fun p => bool_decide (fst p = B "secs_since_epoch") || bool_decide (fst p = B "nanos_since_epoch")) o
      then
        match required "secs_since_epoch" (d_unsigned U64_MAX) o, required "nanos_since_epoch" d_u32 o with
        | Some s, Some n =>
            let s' := (s + n / 1000000000)%N in
            if N.leb s' I64_MAX then Some (SysTime s' (n mod 1000000000)) else None
        | _, _ => None
        end
      else None
  | _ => None
  end.

(** Unknown fields are ignored. (A struct written as an array of its fields, which serde_json also accepts, is not.). logfile2.rs:27-40. *)
Definition d_header (j : json) : option header_entry :=
  o ← d_obj j;
  v ← required "version" d_u32 o; t ← required "time" d_time o; u ← required "user" d_str o;
  hn ← required "hostname" d_str o; wk ← required "workflow_key" d_str o; cl ← required "cmdline" (d_list d_str) o;
  wd ← required "workdir" d_str o; p ← required "pid" d_u32 o; sr ← defaulted "storage_roots" [] (d_list d_str) o;
  Some (HeaderEntry v t u hn wk cl wd p sr).
(** logfile2.rs:42-51. *)
Definition d_ready (j : json) : option ready_entry :=
  o ← d_obj j;
  t ← required "time" d_time o; k ← required "key" d_str o; c ← required "runcount" d_u32 o;
  cmd ← required "command" d_str o; r ← defaulted "r" 0%N d_u32 o;
  Some (ReadyEntry t k c cmd r).
(** logfile2.rs:53-62. *)
Definition d_started (j : json) : option started_entry :=
  o ← d_obj j;
  t ← required "time" d_time o; k ← required "key" d_str o; h ← required "host" d_str o;
  p ← required "pid" d_u32 o; sj ← defaulted "slurm_jobid" ""%string d_str o;
  Some (StartedEntry t k h p sj).
(** logfile2.rs:64-71. *)
Definition d_finished (j : json) : option finished_entry :=
  o ← d_obj j;
  t ← required "time" d_time o; k ← required "key" d_str o; s ← required "status" d_i32 o;
  vs ← defaulted "values" [] (d_list d_map) o;
  Some (FinishedEntry t k s vs).
(** logfile2.rs:73-76. *)
Definition d_backref (j : json) : option backref_entry :=
  o ← d_obj j; k ← required "key" d_str o; Some (BackrefEntry k).

(** logfile2.rs:18-25, an externally tagged enum: an object with one member. *)
Definition d_entry (j : json) : option log_entry :=
  match j with
  | JObj [(tag, v)] =>
      if bool_decide (tag = B "Header") then option_map Header (d_header v)
      else if bool_decide (tag = B "Ready") then option_map Ready (d_ready v)
      else if bool_decide (tag = B "Started") then option_map Started (d_started v)
      else if bool_decide (tag = B "Finished") then option_map Finished (d_finished v)
      else if bool_decide (tag = B "Backref") then option_map Backref (d_backref v)
      else None
  | _ => None
  end.

(** logfile2.rs:315, 584 serde_json::from_str::<LogEntry> *)
Definition parse_record (s : bytes) : option log_entry :=
  match read_json s with Some j => d_entry j | None => None end.

(** ** The file *)

(** The lines that successive calls of BufRead::read_line deliver, each with its newline; the last may lack one. logfile2.rs:309, 578. *)
Fixpoint raw_lines (s : bytes) : list bytes :=
  match s with
  | [] => []
  | c :: r =>
      if Ascii.eqb c LF then [c] :: raw_lines r
      else match raw_lines r with [] => [[c]] | l :: ls => (c :: l) :: ls end
  end.

(** logfile2.rs:313-314: trim_end_matches(['\r', '\n']) *)
Definition is_eol (c : ascii) : bool := Ascii.eqb c CRET || Ascii.eqb c LF.
(** logfile2.rs:313-314, 582-583. *)
Fixpoint trim_eol (s : bytes) : bytes :=
  match s with
  | [] => []
  | c :: r => match trim_eol r with [] => if is_eol c then [] else [c] | r' => c :: r' end
  end.

(** load_runcounts on a file: a line that is not UTF-8 (read_line's error), a line that is not a record (315-318),
    or what the records give. *)
Inductive file_result :=
| FLoaded (r : load_result)
| FNotUtf8
| FNotJson.

(** logfile2.rs:307-387, the loop. *)
Fixpoint load_lines (v : load_vars) (ls : list bytes) : file_result :=
  match ls with
  | [] => FLoaded (LOk (LogState (lv_runcounts v) (lv_header v)))
  | l :: ls =>
      if utf8_valid l then
        match parse_record (trim_eol l) with
        | None => FNotJson
        | Some e =>
            match load_step v e with
            | inl v' => load_lines v' ls
            | inr err => FLoaded err
            end
        end
      else FNotUtf8
  end.

(** logfile2.rs:297-390 load_runcounts *)
Definition load_file (f : bytes) : file_result := load_lines (LoadVars ∅ None None) (raw_lines f).

(** logfile2.rs:571-593 LogFileSnapshotReader::read: lines that are not records are left out. [None]: not UTF-8. *)
Fixpoint read_lines (ls : list bytes) : option (list log_entry) :=
  match ls with
  | [] => Some []
  | l :: ls =>
      if utf8_valid l then
        match read_lines ls with
        | None => None
        | Some es => Some (match parse_record (trim_eol l) with Some e => e :: es | None => es end)
        end
      else None
  end.
(** logfile2.rs:571-593. *)
Definition read_file (f : bytes) : option (list log_entry) := read_lines (raw_lines f).

(** logfile2.rs:274-275: the bytes a write appends. *)
Definition appends (e : log_entry) (f f' : bytes) : Prop := exists t, record_text e t /\ f' = f ++ t ++ [LF].
