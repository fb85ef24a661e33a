(** Vocabulary for storage locations. *)
From Verif Require Export LocModel SessionSpec.
Open Scope string_scope.

(** The letters of a text. *)
Definition has_char (c : ascii) (s : string) : Prop := exists a b, s = a +:+ String c b.
Definition contains (p s : string) : Prop := exists a b, s = a +:+ p +:+ b.
Definition begins_with (p s : string) : Prop := exists b, s = p +:+ b.

(** [sep] between the parts. *)
Fixpoint joined_by (sep : string) (parts : list string) : string :=
  match parts with
  | [] => ""
  | [p] => p
  | p :: rest => p +:+ sep +:+ joined_by sep rest
  end.

(** [s] with every $KEY replaced by [key] is [s']. *)
Definition key_replaced (key s s' : string) : Prop :=
  exists parts, parts <> [] /\ Forall (fun p => ~ contains "$KEY" p) parts /\
    s = joined_by "$KEY" parts /\ s' = joined_by key parts.

(** [f] is the path of [p] seen from [base]: [p] itself if it begins with a slash, otherwise
    [base], one slash unless [base] has one at its end (or is empty), and [p]. *)
Definition seen_from (base p f : string) : Prop :=
  (begins_with "/" p /\ f = p) \/
  (~ begins_with "/" p /\ (base = "" \/ exists b, base = b +:+ "/") /\ f = base +:+ p) \/
  (~ begins_with "/" p /\ base <> "" /\ (forall b, base <> b +:+ "/") /\ f = base +:+ "/" +:+ p).

(** Equal up to one slash at the end. *)
Definition no_slash_at_end (a : string) : Prop := forall b, a <> b +:+ "/".
Definition same_place (a b : string) : Prop :=
  a = b \/ (no_slash_at_end b /\ a = b +:+ "/") \/ (no_slash_at_end a /\ b = a +:+ "/").

(** The number that a row of decimal digits stands for ([acc]: the digits before). *)
Fixpoint digits_value (acc : N) (s : string) : option N :=
  match s with
  | EmptyString => Some acc
  | String c r =>
      if (48 <=? N_of_ascii c)%N && (N_of_ascii c <=? 57)%N
      then digits_value (10 * acc + (N_of_ascii c - 48))%N r else None
  end.

(** The name of the directory of an attempt. *)
Definition attempt_name (key : string) (c : N) : string := key +:+ "." +:+ decimal c.
