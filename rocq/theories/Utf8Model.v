(** Byte strings and UTF-8, as checked by std::str::from_utf8 (used at /repo/src/localrunner.rs:260, and by
    BufRead::lines in /repo/src/logfile2.rs:309). A string of the code is the list of its bytes. *)
From stdpp Require Export prelude strings.
From Coq Require Export NArith Ascii.

(** The bytes of a str or a Vec<u8> (localrunner.rs:168, 260). *)
Definition bytes := list ascii.
(** A byte as a number (localrunner.rs:260), *)
Definition code (a : ascii) : N := N_of_ascii a.
(** and whether it is in a range of the table below (localrunner.rs:260). *)
Definition within (lo hi : N) (a : ascii) : bool := N.leb lo (code a) && N.leb (code a) hi.

(** core/src/str/validations.rs run_utf8_validation: the table of the accepted sequences. *)
Fixpoint utf8_valid (b : bytes) : bool :=
  match b with
  | [] => true
  | b1 :: r1 =>
      if N.ltb (code b1) 128 then utf8_valid r1
      else if within 194 223 b1 then
        match r1 with b2 :: r2 => within 128 191 b2 && utf8_valid r2 | [] => false end
      else
        match r1 with
        | b2 :: b3 :: r3 =>
            if N.eqb (code b1) 224 then within 160 191 b2 && within 128 191 b3 && utf8_valid r3
            else if within 225 236 b1 then within 128 191 b2 && within 128 191 b3 && utf8_valid r3
            else if N.eqb (code b1) 237 then within 128 159 b2 && within 128 191 b3 && utf8_valid r3
            else if within 238 239 b1 then within 128 191 b2 && within 128 191 b3 && utf8_valid r3
            else
              match r3 with
              | b4 :: r4 =>
                  if N.eqb (code b1) 240 then within 144 191 b2 && within 128 191 b3 && within 128 191 b4 && utf8_valid r4
                  else if within 241 243 b1 then within 128 191 b2 && within 128 191 b3 && within 128 191 b4 && utf8_valid r4
                  else if N.eqb (code b1) 244 then within 128 143 b2 && within 128 191 b3 && within 128 191 b4 && utf8_valid r4
                  else false
              | [] => false
              end
        | _ => false
        end
  end.
