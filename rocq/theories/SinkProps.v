(** C59: messages go to the console and to the file log.txt. Vocabulary: SinkSpec.v. *)
From Verif Require Import SinkProofs.
Open Scope nat_scope.

(** C59. Each file contains what it contained, followed by what was given to its writer, in order, up to a part that is only
    missing while it is the file in use; after a successful flush nothing is missing. *)
Theorem mirror_file_exact C disk acts s t :
  logging C disk acts s t -> replaced_safely acts ->
  (forall f, exists rest, sk_disk s f ++ rest = disk f ++ filed f t /\ (rest <> [] -> chosen acts = Some f \/ sk_poisoned s = true)) /\
  (forall c rs acts' t', acts = acts' ++ [Flush c rs] -> t = t' ++ [Flushed true] -> forall f, sk_disk s f = disk f ++ filed f t).
Proof.
  intros [HC Hr] Hs. pose proof (file_run C HC _ _ _ _ Hr Hs) as Hf. split.
  - intros f. exists (held f s). split; [done|]. unfold held. destruct (sk_file s) as [[g b]|] eqn:E; [|done]. destruct (String.eqb f g) eqn:Eg; [|done]. apply String.eqb_eq in Eg as <-.
    intros _. destruct (sk_poisoned s) eqn:Ep; [by right|]. left.
    assert (H : sk_poisoned s = false -> chosen acts = option_map fst (sk_file s)).
    { clear - Hr. revert s t Hr. induction acts as [|a acts IH] using rev_ind; intros s t H; [by injection H as <- <-|].
      apply sink_run_snoc in H as (s1 & t1 & os & H1 & H2 & ->). specialize (IH _ _ H1). unfold chosen in *. rewrite fold_left_app. cbn [fold_left].
      destruct a as [[p|] op rs|i frags|i c rs|c rs]; cbn [sink_step] in H2.
      - destruct (sk_poisoned s1) eqn:E; [injection H2 as <- <-; by rewrite E|]. destruct op; [|by injection H2 as <- <-]. intros _. destruct (sk_file s1) as [[g b]|]; [|by injection H2 as <- <-].
        destruct (flush_buf _ _ _ _) as [[[[ok b1] d1] r1]|]; [|done]. by injection H2 as <- <-.
      - injection H2 as <- <-. done.
      - destruct (sk_threads s1 i); [done|]. by injection H2 as <- <-.
      - destruct (sk_threads s1 i) as [[|[|x b] r]|]; [by injection H2 as <- <-|by injection H2 as <- <-| |done]. destruct (sk_poisoned s1); [by injection H2 as <- <-|].
        unfold sink_write in H2. destruct c as [k|]; [|injection H2 as <- <-; intros _; by apply IH]. destruct (piece _ _); [|done].
        destruct (sk_file s1) as [[g buf]|]; [|injection H2 as <- <-; intros _; by apply IH].
        destruct (buf_write _ _ _ _ _ _) as [[[[n|] buf'] d']|]; [| |done]; injection H2 as <- <-; intros _; by apply IH.
      - destruct (sk_poisoned s1) eqn:E; [injection H2 as <- <-; by rewrite E|]. destruct c; [|injection H2 as <- <-; intros _; by apply IH]. destruct (sk_file s1) as [[g b]|] eqn:Ef; [|injection H2 as <- <-; intros _; rewrite Ef; by apply IH].
        destruct (flush_buf _ _ _ _) as [[[[ok b1] d1] r1]|]; [|done]. injection H2 as <- <-. intros _. by apply IH. }
    rewrite (H Ep), E. done.
  - intros c rs acts' t' -> Et f. apply sink_run_snoc in Hr as (s1 & t1 & os & H1 & H2 & ->). cbn [sink_step] in H2.
    assert (Hl : forall os0, os = os0 -> length os0 = 1 -> os0 = [Flushed true]).
    { intros os0 -> Hl. destruct os0 as [|o [|]]; [done| |done]. by apply app_inj_tail in Et as [_ ->]. }
    rewrite <- Hf. destruct (sk_poisoned s1); [injection H2 as <- <-; by specialize (Hl _ eq_refl eq_refl)|].
    destruct c; [|injection H2 as <- <-; by specialize (Hl _ eq_refl eq_refl)].
    assert (held f s = []) as ->; [|by rewrite app_nil_r]. unfold held. destruct (sk_file s1) as [[g buf]|] eqn:Ef; [|injection H2 as <- <-; by rewrite Ef].
    destruct (flush_buf g rs buf (sk_disk s1)) as [[[[ok b1] d1] r1]|] eqn:Efl; [|done]. injection H2 as <- <-. specialize (Hl _ eq_refl eq_refl). injection Hl as ->.
    apply flush_spec in Efl as (_ & _ & H3 & _). cbn [sk_file]. rewrite H3 by done. by destruct (String.eqb f g).
Qed.
Print Assumptions mirror_file_exact.

(** C59. What a thread gives to the files for a message is a beginning of the message, and all of it if logging it is
    reported to have succeeded; then it is given fragment by fragment if these are smaller than the buffer. *)
Theorem message_complete C disk acts s t t1 i frags t2 ok t3 :
  logging C disk acts s t -> t = t1 ++ Began i frags :: t2 ++ Ended i ok :: t3 -> same_message i t2 ->
  (exists rest, concat (pieces_by i t2) ++ rest = concat frags) /\
  (ok = true -> concat (pieces_by i t2) = concat frags /\ (small C frags -> pieces_by i t2 = List.filter nonempty frags)).
Proof.
  intros [HC Hr] -> Hs. destruct (minv_run C HC _ _ _ _ Hr) as [_ H].
  destruct (H (t1 ++ Began i frags :: t2) i ok t3) as (fr & ps & rest & Hl & [Hp1 Hp2] & Hok); [by rewrite <- List.app_assoc|].
  rewrite last_message_app in Hl. cbn [last_message] in Hl. rewrite Nat.eqb_refl, last_message_same in Hl by done. injection Hl as <- <-. cbn [app] in *.
  split; [by eexists|]. intros Ho. rewrite (Hok Ho) in *. cbn [concat List.filter] in *. rewrite app_nil_r in Hp1. split; [done|]. intros Hsm.
  destruct (Hp2 Hsm) as [_ Hq]. by rewrite app_nil_r in Hq.
Qed.
Print Assumptions message_complete.

Lemma console_run C disk acts s t : sink_run C (sink_start disk) acts = Some (s, t) -> sk_console s = shown t.
Proof.
  revert s t. induction acts as [|a acts IH] using rev_ind; intros s t H; [by injection H as <- <-|].
  apply sink_run_snoc in H as (s1 & t1 & os & H1 & H2 & ->). rewrite shown_app, <- (IH _ _ H1). clear IH H1.
  destruct a as [[p|] op rs|i frags|i c rs|c rs]; cbn [sink_step] in H2; unfold sink_write in H2;
    repeat match type of H2 with
    | (if ?b then _ else _) = _ => destruct b; try done
    | match ?b with _ => _ end = _ => destruct b; try done
    end; injection H2 as <- <-; cbn [sk_console]; try (by rewrite app_nil_r); unfold shown; cbn [map concat app]; by rewrite ?app_nil_r.
Qed.

(** C59. If nothing fails, the console takes all it is given and no fragment is as large as the buffer, then the console shows
    what is written to the files, in the same order. *)
Theorem console_mirrors C disk p rs acts s t :
  logging C disk (Init (Some p) true rs :: acts) s t -> no_failure acts -> console_takes_all C disk (Init (Some p) true rs :: acts) ->
  (forall i frags, In (Begin i frags) acts -> small C frags) -> sk_console s = all_filed t.
Proof.
  intros [HC Hr] Hn Hc Hs. rewrite (console_run _ _ _ _ _ Hr).
  assert (H : shown t = all_filed t /\ (forall i rest, sk_threads s i = Some rest -> small C rest) /\ sk_file s <> None /\ sk_poisoned s = false); [|apply H].
  revert s t Hr. induction acts as [|a acts IH] using rev_ind; intros s t Hr.
  - cbn [sink_run sink_step sink_start sk_poisoned sk_file] in Hr. injection Hr as <- <-. done.
  - rewrite app_comm_cons in Hr. apply sink_run_snoc in Hr as (s1 & t1 & os & H1 & H2 & ->).
    destruct (IH ltac:(intros b Hb; apply Hn, in_or_app; by left)
                 ltac:(intros a1 i k r a2 s2 t2 b r' Hx; apply (Hc a1 i k r (a2 ++ [a])); by rewrite app_comm_cons, Hx, <- List.app_assoc)
                 ltac:(intros i fr Hb; eapply (Hs i), in_or_app; by left) _ _ H1) as (Ht & Hth & Hf & Hp). clear IH.
    assert (Ha : no_failure [a]) by (intros b [<-|[]]; apply Hn, in_or_app; right; by left). specialize (Ha a (or_introl eq_refl)).
    rewrite shown_app, all_filed_app, Ht. destruct a as [[q|] op rs'|i frags|i c rs'|c rs']; cbn [sink_step] in H2.
    + rewrite Hp in H2. destruct Ha as [-> Ha]. destruct (sk_file s1) as [[g buf]|]; [|done].
      destruct (flush_buf _ _ _ _) as [[[[ok b1] d1] r1]|]; [|done]. by injection H2 as <- <-.
    + by injection H2 as <- <-.
    + destruct (sk_threads s1 i); [done|]. injection H2 as <- <-. split; [done|]. split; [|done]. intros j rest. cbn [sk_threads].
      destruct (decide (i = j)) as [<-|Hne]; [rewrite upd_same|rewrite upd_ne by done; apply Hth]. intros [= <-]. apply (Hs i), in_or_app. right. by left.
    + destruct (sk_threads s1 i) as [[|[|x b] r]|] eqn:Ei; [| | |done].
      * injection H2 as <- <-. split; [done|]. split; [|done]. intros j rest. cbn [sk_threads].
        destruct (decide (i = j)) as [<-|Hne]; [by rewrite upd_same|rewrite upd_ne by done; apply Hth].
      * injection H2 as <- <-. split; [done|]. split; [|done]. intros j rest. cbn [sk_threads].
        destruct (decide (i = j)) as [<-|Hne]; [rewrite upd_same|rewrite upd_ne by done; apply Hth]. intros [= <-]. specialize (Hth _ _ Ei). intros b Hb. apply Hth. by right.
      * rewrite Hp in H2. unfold sink_write in H2. destruct Ha as [Ha Hrs]. destruct c as [k|]; [|done]. destruct (piece k (x :: b)) as [pc|] eqn:Ep; [|done].
        destruct (sk_file s1) as [[g buf]|]; [|done]. destruct (buf_write _ _ _ _ _ _) as [[[[n|] buf'] d']|] eqn:Ew; [| |done]; apply buf_write_spec in Ew as [Hw _]; [|by destruct Hw].
        injection H2 as <- <-. destruct (Hw HC) as (_ & _ & Hl); [done|]. specialize (Hth _ _ Ei) as Hsm. rewrite (Hl (Hsm _ (or_introl eq_refl))).
        assert (k = length (x :: b)) as ->. { eapply (Hc (Init (Some p) true rs :: acts) i k rs' [] s1 t1 (x :: b) r); [done|done|done|done]. }
        apply piece_spec in Ep as [-> _]. split; [|split; [|done]].
        -- unfold shown, all_filed. cbn [map concat]. done.
        -- intros j rest. cbn [sk_threads]. rewrite drop_all. destruct (decide (i = j)) as [<-|Hne]; [rewrite upd_same|rewrite upd_ne by done; apply Hth]. intros [= <-].
           intros b' [<-|Hb]; [simpl; lia|]. apply Hsm. by right.
    + rewrite Hp in H2. destruct Ha as [-> Ha]. destruct (sk_file s1) as [[g buf]|] eqn:E; [|done]. destruct (flush_buf _ _ _ _) as [[[[ok b1] d1] r1]|]; [|done]. by injection H2 as <- <-.
Qed.
Print Assumptions console_mirrors.

(** C59. A message is given up only for a reason: once a file was chosen, and if nothing fails, every message that ends is complete, and nothing panics. *)
Theorem message_never_given_up C disk p rs acts s t :
  logging C disk (Init (Some p) true rs :: acts) s t -> no_failure acts -> (forall i, ~ In (Ended i false) t) /\ ~ In Panic t.
Proof.
  intros [HC Hr] Hn.
  assert (H : ((forall i, ~ In (Ended i false) t) /\ ~ In Panic t) /\ sk_file s <> None /\ sk_poisoned s = false); [|apply H].
  revert s t Hr. induction acts as [|a acts IH] using rev_ind; intros s t Hr.
  - cbn [sink_run sink_step sink_start sk_poisoned sk_file] in Hr. injection Hr as <- <-. split; [split; [intros i|]; by intros []|done].
  - rewrite app_comm_cons in Hr. apply sink_run_snoc in Hr as (s1 & t1 & os & H1 & H2 & ->).
    destruct (IH ltac:(intros b Hb; apply Hn, in_or_app; by left) _ _ H1) as ([Ht Htp] & Hf & Hp). clear IH.
    assert (Ha : no_failure [a]) by (intros b [<-|[]]; apply Hn, in_or_app; right; by left). specialize (Ha a (or_introl eq_refl)).
    assert (Hos : ((forall i, ~ In (Ended i false) os) /\ ~ In Panic os) /\ sk_file s <> None /\ sk_poisoned s = false).
    { destruct a as [[q|] op rs'|i frags|i c rs'|c rs']; cbn [sink_step] in H2.
      + rewrite Hp in H2. destruct Ha as [-> Ha]. destruct (sk_file s1) as [[g buf]|]; [|done].
        destruct (flush_buf _ _ _ _) as [[[[ok b1] d1] r1]|]; [|done]. injection H2 as <- <-. split; [split; [intros i|]; by intros []|done].
      + injection H2 as <- <-. split; [split; [intros i|]; by intros []|done].
      + destruct (sk_threads s1 i); [done|]. injection H2 as <- <-. split; [split; [intros j|]; by intros [|[]]|done].
      + destruct (sk_threads s1 i) as [[|[|x b] r]|] eqn:Ei; [| | |done].
        * injection H2 as <- <-. split; [split; [intros j|]; by intros [|[]]|done].
        * injection H2 as <- <-. split; [split; [intros j|]; by intros []|done].
        * rewrite Hp in H2. unfold sink_write in H2. destruct Ha as [Ha Hrs]. destruct c as [k|]; [|done]. destruct (piece k (x :: b)) as [pc|] eqn:Ep; [|done].
          destruct (sk_file s1) as [[g buf]|]; [|done]. destruct (buf_write _ _ _ _ _ _) as [[[[n|] buf'] d']|] eqn:Ew; [| |done]; apply buf_write_spec in Ew as [Hw _]; [|by destruct Hw].
          injection H2 as <- <-. split; [split; [intros j|]; by intros [|[|[]]]|done].
      + rewrite Hp in H2. destruct Ha as [-> Ha]. destruct (sk_file s1) as [[g buf]|] eqn:E; [|done]. destruct (flush_buf _ _ _ _) as [[[[ok b1] d1] r1]|]; [|done]. injection H2 as <- <-.
        split; [split; [intros j|]; by intros [|[]]|done]. }
    destruct Hos as [[Ho Hop] Hrest]. split; [|done]. split; [intros i Hi|intros Hi]; apply in_app_or in Hi as [Hi|Hi]; naive_solver.
Qed.
Print Assumptions message_never_given_up.

(** C59. flush_logging fails only if the console cannot be flushed or a write to the file fails, with or without a file; and it
    always flushes if neither happens, unless a constructor has failed before. *)
Theorem flush_fails_for_a_reason C disk acts s t c rs s' os :
  logging C disk acts s t -> sink_step C s (Flush c rs) = Some (s', os) ->
  (In (Flushed false) os -> c = false \/ In WFailed rs) /\ (c = true -> ~ In WFailed rs -> os = [Flushed true] \/ In Panic t).
Proof.
  intros [_ Hr] H. assert (Hp : sk_poisoned s = true -> In Panic t).
  { clear H. revert s t Hr. induction acts as [|a acts IH] using rev_ind; intros s t Hr Hp; [by injection Hr as <- <-|].
    apply sink_run_snoc in Hr as (s1 & t1 & os1 & H1 & H2 & ->). apply in_or_app. destruct (sk_poisoned s1) eqn:E1; [left; by eapply IH|right].
    destruct a as [[q|] op rs'|i frags|i c' rs'|c' rs']; cbn [sink_step] in H2; rewrite ?E1 in H2.
    - destruct op; [|injection H2 as <- <-; by left]. destruct (sk_file s1) as [[g buf]|]; [destruct (flush_buf _ _ _ _) as [[[[ok b1] d1] r1]|]; [|done]|]; injection H2 as <- <-; done.
    - injection H2 as <- <-. by rewrite E1 in Hp.
    - destruct (sk_threads s1 i); [done|]. injection H2 as <- <-. cbn in Hp. by rewrite ?E1 in Hp.
    - destruct (sk_threads s1 i) as [[|[|x b] r]|]; [| | |done]; [injection H2 as <- <-; cbn in Hp; by rewrite ?E1 in Hp..|].
      unfold sink_write in H2. repeat case_match; try done; injection H2 as <- <-; done.
    - destruct c'; [|injection H2 as <- <-; by rewrite ?E1 in Hp]. destruct (sk_file s1) as [[g buf]|]; [destruct (flush_buf _ _ _ _) as [[[[ok b1] d1] r1]|]; [|done]|]; injection H2 as <- <-; [done|].
      by rewrite ?E1 in Hp. }
  cbn [sink_step] in H. destruct (sk_poisoned s); [injection H as <- <-; split; [by intros [|[]]|right; by apply Hp]|].
  destruct c; [|injection H as <- <-; split; [by left|done]].
  destruct (sk_file s) as [[g buf]|]; [|injection H as <- <-; split; [by intros [|[]]|by left]].
  destruct (flush_buf _ _ _ _) as [[[[ok b1] d1] r1]|] eqn:Ef; [|done]. apply flush_spec in Ef as (_ & _ & _ & Hok & _). injection H as <- <-. split.
  - intros [[= ->]|[]]. right. destruct (in_dec (fun x y : wres => ltac:(decide equality; apply Nat.eq_dec)) WFailed rs) as [|Hn]; [done|]. by apply Hok in Hn.
  - intros _ Hn. left. by rewrite Hok.
Qed.
Print Assumptions flush_fails_for_a_reason.

(** C59. Nothing panics unless the file of a graph could not be opened; in particular not after a write has failed. *)
Theorem panic_for_a_reason C disk acts s t : logging C disk acts s t -> In Panic t -> exists p rs, In (Init (Some p) false rs) acts.
Proof.
  intros [_ Hr] Hin. assert (H : In Panic t \/ sk_poisoned s = true -> exists p rs, In (Init (Some p) false rs) acts); [|apply H; by left]. clear Hin.
  revert s t Hr. induction acts as [|a acts IH] using rev_ind; intros s t Hr; [injection Hr as <- <-; by intros [|]|].
  apply sink_run_snoc in Hr as (s1 & t1 & os1 & H1 & H2 & ->). specialize (IH s1 t1 H1).
  assert (Hd : (exists p rs, a = Init (Some p) false rs) \/ ((In Panic os1 \/ sk_poisoned s = true) -> sk_poisoned s1 = true)).
  { clear IH H1. destruct a as [[q|] op rs'|i frags|i c' rs'|c' rs']; cbn [sink_step] in H2.
    - destruct op; [|by left; eexists _, _]. right. destruct (sk_poisoned s1); [done|]. destruct (sk_file s1) as [[g buf]|]; [destruct (flush_buf _ _ _ _) as [[[[ok b1] d1] r1]|]; [|done]|]; injection H2 as <- <-; by intros [|].
    - right. injection H2 as <- <-. by intros [|].
    - right. destruct (sk_threads s1 i); [done|]. injection H2 as <- <-. by intros [[|[]]|].
    - right. destruct (sk_threads s1 i) as [[|[|x b] r]|]; [| | |done].
      { injection H2 as <- <-. cbn. by intros [[|[]]|]. }
      { injection H2 as <- <-. cbn. by intros [[]|]. }
      destruct (sk_poisoned s1); [done|]. unfold sink_write in H2. repeat case_match; try done; injection H2 as <- <-; cbn; (intros [Hx|Hx]; [|done]; repeat (destruct Hx as [Hx|Hx]; [done|]); done).
    - right. destruct (sk_poisoned s1) eqn:E1; [done|]. destruct c'; [|injection H2 as <- <-; by intros [[|[]]|Hx]; [|rewrite E1 in Hx]].
      destruct (sk_file s1) as [[g buf]|]; [destruct (flush_buf _ _ _ _) as [[[[ok b1] d1] r1]|]; [|done]|]; injection H2 as <- <-; (intros [[|[]]|Hx]; [done|]); [done|by rewrite E1 in Hx]. }
  intros Hp. destruct Hd as [(p & rs & ->)|Hd]; [exists p, rs; apply in_or_app; right; by left|].
  assert (Hq : In Panic t1 \/ sk_poisoned s1 = true). { destruct Hp as [[|]%in_app_or|]; [by left|right; apply Hd; by left|right; apply Hd; by right]. }
  destruct (IH Hq) as (p & rs & Hi). exists p, rs. apply in_or_app. by left.
Qed.
Print Assumptions panic_for_a_reason.

(** ** Concrete cases *)
Ltac nofail := intros a H; repeat (destruct H as [H|H]; [subst; repeat split; try done; intros Hf; repeat (destruct Hf as [Hf|Hf]; [done|]); done|]); done.
Definition bts (s : string) : bytes := list_ascii_of_string s.
Definition line : list bytes := [bts "[1/2] "; bts "make"; []; bts "."].
(** Two files, two threads, a buffer of 8 bytes and a write that takes a part only. *)
Definition log_acts : list sinkact :=
  [Init (Some "a/log.txt") true []; Begin 0 line; Go 0 (Took 6) []; Begin 1 [bts "warn"]; Go 1 (Took 4) [Took 2; Took 4]; Go 0 (Took 0) []; Go 0 (Took 4) [];
   Init (Some "b/log.txt") true [Took 8]; Go 0 (Took 0) []; Go 0 (Took 0) []; Go 0 (Took 1) []; Go 0 (Took 0) []; Go 0 (Took 0) []; Go 1 (Took 0) []; Go 1 (Took 0) []; Flush true [Took 1]].
Example log_run : exists s t, logging 8 (fun _ => bts "old ") log_acts s t /\ replaced_safely log_acts /\ no_failure (tail log_acts) /\
  sk_disk s "a/log.txt"%string = bts "old [1/2] warnmake" /\ sk_disk s "b/log.txt"%string = bts "old ." /\ sk_console s = bts "[1/2] warnmake." /\
  exists t1 t2 t3, t = t1 ++ Began 0 line :: t2 ++ Ended 0 true :: t3 /\ same_message 0 t2 /\ pieces_by 0 t2 = [bts "[1/2] "; bts "make"; bts "."].
Proof.
  eexists _, _. split; [split; [lia|vm_compute; reflexivity]|].
  split; [intros p o rs H Hf; repeat (destruct H as [H|H]; [try done; injection H as <- <- <-; repeat (destruct Hf as [Hf|Hf]; [done|]); done|]); done|].
  split; [nofail|].
  split; [reflexivity|]. split; [reflexivity|]. split; [reflexivity|].
  eexists [], [ToConsole 0 (bts "[1/2] "); ToFile 0 "a/log.txt" (bts "[1/2] "); Began 1 [bts "warn"]; ToConsole 1 (bts "warn"); ToFile 1 "a/log.txt" (bts "warn");
    ToConsole 0 (bts "make"); ToFile 0 "a/log.txt" (bts "make"); ToConsole 0 (bts "."); ToFile 0 "b/log.txt" (bts ".")], _.
  split; [reflexivity|]. split; [|reflexivity]. intros o H. repeat (destruct H as [<-|H]; [done|]). done.
Qed.

(** ** What does not hold *)
(** A message is logged successfully, but the console has shown a part only: a short write to it goes unnoticed. *)
Theorem console_complete_refuted :
  exists C disk acts s t i frags t2, logging C disk acts s t /\ no_failure acts /\ small C frags /\ t = Began i frags :: t2 ++ [Ended i true] /\ shown t <> concat frags.
Proof.
  exists 8, (fun _ => []), [Init (Some "log.txt") true []; Begin 0 [bts "abc"]; Go 0 (Took 1) []; Go 0 (Took 0) []; Go 0 (Took 0) []].
  eexists _, _, 0, [bts "abc"], _. split; [split; [lia|reflexivity]|].
  split; [nofail|]. split; [intros b [<-|[]]; simpl; lia|].
  split; [by instantiate (1 := [_; _])|done].
Qed.
(** If the file takes a part of a large fragment, the rest is shown twice. *)
Theorem console_not_repeated_refuted :
  exists C disk acts s t i frags t2, logging C disk acts s t /\ no_failure acts /\ console_takes_all C disk acts /\ t = Began i frags :: t2 ++ [Ended i true] /\
    length (concat frags) < length (shown t).
Proof.
  exists 2, (fun _ => []), [Init (Some "log.txt") true []; Begin 0 [bts "abc"]; Go 0 (Took 3) [Took 1]; Go 0 (Took 2) [Took 2]; Go 0 (Took 0) []; Go 0 (Took 0) []].
  eexists _, _, 0, [bts "abc"], _. split; [split; [lia|reflexivity]|].
  split; [nofail|].
  split.
  - intros a1 i k rs a2 s1 t1 b r E H1 H2 Hb. destruct a1 as [|? [|? [|? [|? [|? [|? [|]]]]]]]; try done; injection E as; subst; vm_compute in H1; (try done); injection H1 as; subst; vm_compute in H2; (try done); injection H2 as; subst; done.
  - split; [by instantiate (1 := [_; _; _; _])|]. vm_compute. lia.
Qed.
(** Messages of two threads can be mixed in the file: only fragments are written as a whole. *)
Theorem message_contiguous_refuted :
  exists C disk acts s t f m1 m2, logging C disk acts s t /\ no_failure acts /\ small C m1 /\ small C m2 /\
    In (Began 0 m1) t /\ In (Began 1 m2) t /\ In (Ended 0 true) t /\ In (Ended 1 true) t /\
    sk_disk s f <> concat m1 ++ concat m2 /\ sk_disk s f <> concat m2 ++ concat m1.
Proof.
  exists 8, (fun _ => []), [Init (Some "log.txt") true []; Begin 0 [bts "a"; bts "b"]; Begin 1 [bts "x"]; Go 0 (Took 1) []; Go 1 (Took 1) []; Go 0 (Took 0) []; Go 0 (Took 1) [];
    Go 0 (Took 0) []; Go 0 (Took 0) []; Go 1 (Took 0) []; Go 1 (Took 0) []; Flush true [Took 3]].
  eexists _, _, "log.txt"%string, [bts "a"; bts "b"], [bts "x"]. split; [split; [lia|vm_compute; reflexivity]|].
  split; [nofail|].
  split; [intros b H; repeat (destruct H as [<-|H]; [simpl; lia|]); done|]. split; [intros b H; repeat (destruct H as [<-|H]; [simpl; lia|]); done|].
  repeat split; try (simpl; tauto); done.
Qed.
(** Once a second graph is constructed, all messages, also those of the first, go to the file of the second. *)
Theorem graph_keeps_its_file_refuted :
  exists C disk acts s t m, logging C disk acts s t /\ no_failure acts /\ In (Init (Some "a/log.txt"%string) true []) acts /\ In (Began 0 m) t /\ In (Ended 0 true) t /\ m <> [] /\ filed "a/log.txt" t = [].
Proof.
  exists 8, (fun _ => []), [Init (Some "a/log.txt") true []; Init (Some "b/log.txt") true []; Begin 0 [bts "a"]; Go 0 (Took 1) []; Go 0 (Took 0) []; Go 0 (Took 0) []].
  eexists _, _, [bts "a"]. split; [split; [lia|vm_compute; reflexivity]|].
  split; [nofail|].
  repeat split; try (simpl; tauto); done.
Qed.
(** The comment of init_logging says that None turns off logging to a file. It does not. *)
Theorem logging_turned_off_refuted :
  exists C disk acts1 acts2 s1 t1 s t, logging C disk (acts1 ++ [Init None true []]) s1 t1 /\ logging C disk (acts1 ++ [Init None true []] ++ acts2) s t /\
    no_failure (acts1 ++ [Init None true []] ++ acts2) /\ (forall p o rs, ~ In (Init p o rs) acts2) /\ filed "log.txt" t1 = [] /\ filed "log.txt" t = bts "a".
Proof.
  exists 8, (fun _ => []), [Init (Some "log.txt") true []], [Begin 0 [bts "a"]; Go 0 (Took 1) []]. eexists _, _, _, _.
  split; [split; [lia|reflexivity]|]. split; [split; [lia|reflexivity]|]. split; [nofail|]. split; [by intros p o rs [H|[H|[]]]|]. done.
Qed.
(** As long as no file was chosen every nonempty message fails, after one write to the console. *)
Theorem message_without_file_refuted C s i b r k rs : sk_file s = None -> sk_poisoned s = false -> sk_threads s i = Some (b :: r) -> 1 <= k <= length b ->
  exists s', sink_step C s (Go i (Took k) rs) = Some (s', [ToConsole i (take k b); Ended i false]).
Proof.
  intros Hf Hp Ht Hk. cbn [sink_step]. rewrite Ht. destruct b as [|x b]; [simpl in Hk; lia|]. rewrite Hp. unfold sink_write, piece.
  destruct Hk as [H1 H2]. apply Nat.leb_le in H1, H2. rewrite H1, H2. cbn [andb]. rewrite Hf. by eexists.
Qed.
(** If the file of a graph cannot be opened, its constructor panics, and so does every thread that logs anything later,
    also for other graphs; nothing is written any more. *)
Theorem failed_constructor_harmless_refuted C disk acts p rs acts' s t t' s' :
  logging C disk (acts ++ [Init (Some p) false rs]) s t -> logging C disk (acts ++ [Init (Some p) false rs] ++ acts') s' (t ++ t') ->
  sk_poisoned s = true /\ forall o, In o t' -> match o with ToFile _ _ _ | ToConsole _ _ | Ended _ false | Flushed _ => False | _ => True end.
Proof.
  intros [_ H1] [_ H2]. assert (Hp : sk_poisoned s = true).
  { apply sink_run_snoc in H1 as (s1 & t1 & os & _ & H & _). cbn [sink_step] in H. destruct (sk_poisoned s1) eqn:E; injection H as <- <-; done. }
  split; [done|]. rewrite List.app_assoc in H2.
  assert (Hr : forall acts s1 t1 acts' s2 t2, sink_run C s1 acts = Some (s2, t1) -> forall s3, sink_run C s1 (acts ++ acts') = Some (s3, t1 ++ t2) -> sink_run C s2 acts' = Some (s3, t2)).
  { clear. induction acts as [|a acts IH]; intros s1 t1 acts' s2 t2 H1 s3 H2; cbn [app sink_run] in *.
    - injection H1 as <- <-. done.
    - destruct (sink_step C s1 a) as [[s' os]|]; [|done]. destruct (sink_run C s' acts) as [[s'' os']|] eqn:E1; [|done]. injection H1 as <- <-.
      destruct (sink_run C s' (acts ++ acts')) as [[s4 os4]|] eqn:E2; [|done]. injection H2 as -> E. rewrite <- List.app_assoc in E. apply List.app_inv_head in E as ->. by eapply IH. }
  specialize (Hr _ _ _ _ _ _ H1 _ H2). clear H1 H2. revert s t' Hp Hr. induction acts' as [|a acts' IH]; intros s t' Hp Hr; cbn [sink_run] in Hr; [by injection Hr as <- <-|].
  destruct (sink_step C s a) as [[s1 os]|] eqn:E; [|done]. destruct (sink_run C s1 acts') as [[s2 os']|] eqn:E2; [|done]. injection Hr as <- <-.
  assert (sk_poisoned s1 = true /\ forall o, In o os -> match o with ToFile _ _ _ | ToConsole _ _ | Ended _ false | Flushed _ => False | _ => True end) as [Hp1 Ho].
  { destruct a as [[q|] op rs'|i frags|i c rs'|c rs']; cbn [sink_step] in E; rewrite ?Hp in E.
    - injection E as <- <-. split; [done|]. by intros o [<-|[]].
    - injection E as <- <-. done.
    - destruct (sk_threads s i); [done|]. injection E as <- <-. split; [done|]. by intros o [<-|[]].
    - destruct (sk_threads s i) as [[|[|x b] r]|]; [| | |done]; injection E as <- <-; (split; [done|]); try done; by intros o [<-|[]].
    - injection E as <- <-. split; [done|]. by intros o [<-|[]]. }
  intros o [Hin|Hin]%in_app_or; [by apply Ho|]. by eapply IH.
Qed.
Print Assumptions failed_constructor_harmless_refuted.
Example failed_constructor : exists s t, logging 8 (fun _ => []) [Init (Some "a/log.txt") true []; Init (Some "b/log.txt") false []; Begin 0 [bts "a"]; Go 0 (Took 1) []; Flush true []] s t /\
  t = [Panic; Began 0 [bts "a"]; Panic; Panic].
Proof. eexists _, _. split; [split; [lia|reflexivity]|reflexivity]. Qed.
(** A flush of a file, one whose write fails, and one without a file. *)
Example flushes : exists s t s1 s2 s3, logging 8 (fun _ => []) [Init (Some "a/log.txt") true []; Begin 0 [bts "a"]; Go 0 (Took 1) []] s t /\ sink_step 8 s (Flush true [Took 1]) = Some (s1, [Flushed true]) /\
  sink_step 8 s (Flush true [WFailed]) = Some (s2, [Flushed false]) /\ sink_step 8 (sink_start (fun _ => [])) (Flush true []) = Some (s3, [Flushed true]).
Proof. eexists _, _, _, _, _. split; [split; [lia|reflexivity]|]. split; [reflexivity|]. split; reflexivity. Qed.
