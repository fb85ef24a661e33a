(** C58: the bytes that a runner exchanges with a process. Vocabulary: PipeSpec.v. *)
From Verif Require Import PipeLive LossyProofs.
Open Scope nat_scope.

(** C58. The output reported for a task is everything that the process, and those it has started, have written: nothing is
    lost, reordered or read twice, and none of them can write more afterwards. The status is that of the process itself. *)
Theorem output_is_complete K console input p acts s t raw out err fd3 :
  exchange K console input p acts s t -> io_parent s = Finished raw out err fd3 ->
  out = written FOut t /\ err = written FErr t /\ fd3 = written FThree t /\
  (exists o, io_procs s !! 0 = Some (Proc (Exit raw) o)) /\
  (forall i q f, io_procs s !! i = Some q -> f <> FIn -> holds f q = false).
Proof.
  intros [HK Hr] Hf. pose proof (inv_run _ _ _ _ _ _ _ Hr) as HI. pose proof (i_out _ _ _ _ HI) as Ho. rewrite Hf in Ho.
  split; [by rewrite (Ho FOut)|]. split; [by rewrite (Ho FErr)|]. split; [by rewrite (Ho FThree)|]. split.
  - destruct (i_root _ _ _ _ HI) as [_ H]. by rewrite Hf in H.
  - intros i q f Hi Hne. destruct (i_over _ _ _ _ HI f Hne) as [H _]; [by rewrite Hf|]. rewrite existsb_false in H. by eapply H.
Qed.
Print Assumptions output_is_complete.

(** C58. What is read of the input is the input from its beginning, and a process is told that it is over only after all of
    it was read. *)
Theorem input_is_delivered K console input p acts s t :
  exchange K console input p acts s t ->
  (exists rest, read_in t ++ rest = input_bytes input) /\
  (forall t1 i t2, t = t1 ++ ReadEof i :: t2 -> read_in t1 = input_bytes input).
Proof.
  intros [HK Hr]. pose proof (inv_run _ _ _ _ _ _ _ Hr) as HI. split; [|apply (i_eof _ _ _ _ HI)].
  pose proof (i_in _ _ _ _ HI) as H. destruct (io_parent s).
  - exists (io_pipe s FIn ++ rest). done.
  - by exists (io_pipe s FIn).
  - by exists (io_pipe s FIn).
  - destruct H as (rest & _ & H). by exists (io_pipe s FIn ++ rest).
Qed.
Print Assumptions input_is_delivered.

Lemma step_cases K s a s' os : io_step K s a = Some (s', os) ->
  (exists i m q, io_procs s !! i = Some q /\ child_step K s i m q = Some (s', os)) \/ (io_procs s' = io_procs s /\ os = []).
Proof.
  intros H2. unfold io_step in H2. destruct (io_parent s) as [[|x l]|got eof [raw|]|raw o e d|], a as [m| |g m|g| | |i m]; try done;
    repeat match type of H2 with
    | match io_procs s !! i with _ => _ end = _ => destruct (io_procs s !! i) as [q|] eqn:Hi; [left; by exists i, m, q|done]
    | (if ?b then _ else _) = _ => destruct b; try done
    | match ?b with _ => _ end = _ => destruct b eqn:?; try done
    end; right; by injection H2 as <- <-.
Qed.
Lemma never_held K console input p f acts s t : io_run K (io_start console input p) acts = Some (s, t) -> f <> FIn ->
  existsb (holds f) (io_procs (io_start console input p)) = false -> existsb (holds f) (io_procs s) = false /\ written f t = [].
Proof.
  intros Hr Hf H0. revert s t Hr. induction acts as [|a acts IH] using rev_ind; intros s t H.
  - by injection H as <- <-.
  - apply io_run_snoc in H as (s1 & t1 & os & H1 & H2 & ->). destruct (IH _ _ H1) as [Hn Hw].
    destruct (step_cases _ _ _ _ _ H2) as [(i & m & q & Hi & Hc)|[-> ->]]; [|by rewrite app_nil_r].
    split; [by eapply no_holder_stays|]. destruct (child_effect _ _ _ _ _ _ _ Hc) as [He _].
    destruct He as [_|g b _ _ Hh _ _|b r _ _ _|_ _ _]; [by rewrite app_nil_r| |by rewrite written_read|by rewrite written_eof].
    rewrite written_wrote, Hw. destruct (fd_dec f g) as [<-|Hne]; [|by rewrite fd_eqb_ne]. rewrite existsb_false in Hn. by rewrite (Hn _ _ Hi) in Hh.
Qed.
(** C58. Nothing is captured of what a console task writes to its stdout and stderr. *)
Theorem console_output_not_captured K input p acts s t raw out err fd3 :
  exchange K true input p acts s t -> io_parent s = Finished raw out err fd3 -> out = [] /\ err = [].
Proof.
  intros He Hf. destruct (output_is_complete _ _ _ _ _ _ _ _ _ _ _ He Hf) as (-> & -> & _). destruct He as [HK Hr].
  split; (eapply never_held; [exact Hr|done|]); simpl; unfold holds; simpl; by destruct p.
Qed.
Print Assumptions console_output_not_captured.

(** C58. If the process and all it starts come to their ends by themselves: every exchange is over after a bounded number of
    steps, and then the runner has finished and all processes have ended; or the process did not read all of its input, and
    the runner has panicked; or both wait for each other. *)
Theorem exchange_ends K console input p n acts s t :
  exchange K console input p acts s t -> ends (length (input_bytes input)) n p ->
  length acts <= 2 * n + length (input_bytes input) + 6 /\
  (stuck K s -> (finished s /\ forall i q, io_procs s !! i = Some q -> ended q) \/ panicked s \/ deadlocked K s).
Proof.
  intros [HK Hr] He. split.
  - destruct (work_run K HK console input p n acts s t He Hr) as (w & _ & Hw). lia.
  - eapply stuck_cases; [done|]. by eapply inv_run.
Qed.
Print Assumptions exchange_ends.

(** C58. Without fd_input the runner always finishes. *)
Theorem exchange_without_input_ends K console p n acts s t :
  exchange K console None p acts s t -> ends 0 n p ->
  length acts <= 2 * n + 6 /\ (stuck K s -> finished s /\ forall i q, io_procs s !! i = Some q -> ended q).
Proof.
  intros He Hn. destruct (exchange_ends _ _ _ _ _ _ _ _ He Hn) as [Hl Hst]. simpl in Hl. split; [lia|]. intros Hs. destruct He as [HK Hr].
  assert (first_inv K s) as Hf.
  { clear - HK Hr. revert s t Hr. induction acts as [|a acts IH] using rev_ind; intros s t H.
    - injection H as <- <-. by right.
    - apply io_run_snoc in H as (s1 & t1 & os & H1 & H2 & ->). pose proof (inv_run _ _ _ _ _ _ _ H1) as HI.
      eapply (first_step K HK); [by eapply IH|apply (i_eofin _ _ _ _ HI)|done]. }
  destruct (first_not_stuck K HK s Hf) as [Hp Hd]. by destruct (Hst Hs) as [H|[H|H]].
Qed.
Print Assumptions exchange_without_input_ends.

(** C58. So it does if the process reads its input to the end before it writes more than fits into a pipe. *)
Theorem exchange_with_input_read_first_ends K console b p n acts s t :
  exchange K console (Some b) p acts s t -> ends (length b) n p -> reads_first (length b) (fun _ => K) p ->
  length acts <= 2 * n + length b + 6 /\ (stuck K s -> finished s /\ forall i q, io_procs s !! i = Some q -> ended q).
Proof.
  intros He Hn Hrf. destruct (exchange_ends _ _ _ _ _ _ _ _ He Hn) as [Hl Hst]. split; [done|]. intros Hs. destruct He as [HK Hr].
  destruct (first_not_stuck K HK s) as [Hp Hd]; [by eapply first_run|]. by destruct (Hst Hs) as [H|[H|H]].
Qed.
Print Assumptions exchange_with_input_read_first_ends.

(** ** The text of the output *)
(** C58. The text is the output with each piece that is no UTF-8 replaced by U+FFFD; the pieces exist and determine it. *)
Theorem output_text_exact b :
  (exists ps, pieces b ps) /\
  forall ps, pieces b ps -> lossy b = concat (map (fun q : bool * bytes => if q.1 then q.2 else FFFD) ps).
Proof. split; [|apply pieces_lossy]. destruct (lossy_pieces (length b) b) as (ps & H & _); [done|]. by exists ps. Qed.
Print Assumptions output_text_exact.
(** C58. It is always UTF-8, and output that is UTF-8 is not changed. *)
Theorem output_text_is_utf8 b : utf8_valid (lossy b) = true /\ (utf8_valid b = true -> lossy b = b).
Proof.
  split; [by apply (lossy_is_valid (length b))|]. intros H. rewrite <- (app_nil_r b) at 1. rewrite (lossy_app (length b)) by done. by rewrite app_nil_r.
Qed.
Print Assumptions output_text_is_utf8.

(** ** Concrete cases *)
Definition bts (s : string) : bytes := list_ascii_of_string s.
(** It reads its input to the end and writes it back in between; a process it has started writes to stderr after the
    first has ended. *)
CoFixpoint cat : prog := Read 2 (fun b => match b with [] => Fork (Write FErr (bts "late") (Exit 0)) (Write FThree (bts "k=v") (Exit 256)) | _ => Write FOut b cat end).
Definition cat_acts : list ioact :=
  [ParentWrite 3; Child 0 2; Child 0 2; Child 0 0; Child 0 1; Child 0 1; ParentClose; Child 0 0; Child 0 0; Child 0 0; Child 0 3; Child 0 0;
   ParentRead FThree 3; ParentRead FOut 1; ParentWait; Child 1 4; Child 1 0; ParentEof FThree; ParentRead FOut 2; ParentRead FErr 4;
   ParentEof FErr; ParentEof FOut; ParentDone].
Example cat_run : exists s t, exchange 8 false (Some (bts "abc")) cat cat_acts s t /\
  io_parent s = Finished 256 (bts "abc") (bts "late") (bts "k=v") /\ stuck 8 s.
Proof.
  eexists _, _. split; [split; [lia|vm_compute; reflexivity]|]. split; [reflexivity|].
  intros [m| |f m|f| | |i m]; try reflexivity. destruct i as [|[|i]]; reflexivity.
Qed.
Lemma cat_unfold : cat = Read 2 (fun b => match b with [] => Fork (Write FErr (bts "late") (Exit 0)) (Write FThree (bts "k=v") (Exit 256)) | _ => Write FOut b cat end).
Proof. set (q := cat) at 1. assert (q = match q with Exit r => Exit r | Write f b k => Write f b k | Read n k => Read n k | Close f k => Close f k | Fork c k => Fork c k end) as -> by (by destruct q). reflexivity. Qed.
Lemma cat_reads (L : nat) : forall room, L <= room FOut -> reads_first L room cat.
Proof.
  induction L as [L IH] using lt_wf_ind. intros room Hr. rewrite cat_unfold. constructor; [lia|]. intros b Hb Hl. destruct b as [|x b]; [done|].
  constructor; [done|lia|]. apply IH; [simpl in *; lia|]. rewrite set_same. lia.
Qed.
Lemma cat_ends L : ends L (L + (L + 2 * L + 14)) cat.
Proof.
  induction L as [L IH] using lt_wf_ind. rewrite cat_unfold.
  replace (L + (L + 2 * L + 14)) with (S (4 * L + 13)) by lia. constructor. intros b Hb. destruct b as [|x b].
  - eapply (e_fork _ 5 4); [|eapply (e_write _ 0); [constructor|simpl; lia]|lia]. eapply (e_write _ 0); [constructor|simpl; lia].
  - eapply e_write; [apply IH; simpl in *; lia|]. simpl length in *. lia.
Qed.
(** The hypotheses of the theorems on the end are met by this process for each input that fits into a pipe. *)
Example cat_meets (K : nat) (b : bytes) : length b <= K -> ends (length b) (length b + (length b + 2 * length b + 14)) cat /\ reads_first (length b) (fun _ => K) cat.
Proof. intros H. split; [apply cat_ends|by apply cat_reads]. Qed.

(** The exchange does not always end. For every size of the pipes: a process that writes one byte more than fits into the
    pipe of its stdout before it reads its input, of one byte more than fits into a pipe, deadlocks with the runner, which
    writes all the input before it reads. *)
Definition greedy (K : nat) : prog := Write FOut (repeat "x"%char (S K)) (Read (S K) (fun _ => Exit 0)).
Theorem exchange_always_ends_refuted K : 1 <= K ->
  exists input p n acts s t, ends (length input) n p /\ exchange K false (Some input) p acts s t /\ stuck K s /\ deadlocked K s.
Proof.
  intros HK. exists (repeat "i"%char (S K)), (greedy K), (S K + 3), [Child 0 K; ParentWrite K].
  set (s1 := Io [Proc (Write FOut (drop K (repeat "x"%char (S K))) (Read (S K) (fun _ => Exit 0))) (fun f => match f with FIn => true | FOut | FErr => negb false | FThree => true end)]
               (set FIn ([] ++ take K (repeat "i"%char (S K))) (set FOut ([] ++ take K (repeat "x"%char (S K))) (fun _ => []))) (Feeding (drop K (repeat "i"%char (S K))))).
  assert (Hd : forall c : ascii, drop K (repeat c (S K)) = [c]).
  { intros c. clear. induction K as [|K IH]; [done|]. exact IH. }
  assert (Ht : forall m len, 0 < m -> m <= len -> transfer m m len = true) by (intros; apply transfer_spec; lia).
  exists s1, ([Wrote 0 FOut (take K (repeat "x"%char (S K)))] ++ []). split; [|split; [split; [done|]|]].
  - eapply (e_write _ 2); [constructor; intros; constructor|]. rewrite repeat_length. lia.
  - cbn [io_run]. unfold io_start at 1. unfold io_step at 1. cbn [io_parent repeat io_procs lookup list_lookup].
    unfold child_step at 1. unfold greedy at 1. cbn [pr_prog pr_open fd_eqb negb orb repeat io_pipe].
    change (length (@nil ascii)) with 0. rewrite Nat.sub_0_r, Ht; [|lia|simpl; rewrite repeat_length; lia].
    unfold io_step. cbn [io_parent io_procs existsb]. unfold holds. cbn [insert list_insert pr_prog pr_open orb io_pipe].
    rewrite (set_other FOut FIn) by done. change (length (@nil ascii)) with 0. rewrite Nat.sub_0_r, Ht; [|lia|simpl; rewrite repeat_length; lia]. done.
  - assert (Hf : K <= length (io_pipe s1 FOut) /\ K <= length (io_pipe s1 FIn)).
    { unfold s1. cbn [io_pipe]. rewrite set_same, (set_other FIn FOut), set_same by done. cbn [app]. rewrite !take_length. rewrite !repeat_length. lia. }
    assert (Htf : forall m len f, K <= length (io_pipe s1 f) -> transfer m (K - length (io_pipe s1 f)) len = false).
    { intros m len f H. unfold transfer. destruct (Nat.ltb 0 m) eqn:E; [|done]. apply Nat.ltb_lt in E. assert (Nat.leb m (K - length (io_pipe s1 f)) = false) as -> by (apply Nat.leb_gt; lia). done. }
    assert (Hs1 : s1 = Io [Proc (Write FOut ["x"%char] (Read (S K) (fun _ => Exit 0))) (fun f => match f with FIn => true | FOut | FErr => negb false | FThree => true end)] (io_pipe s1) (Feeding ["i"%char])).
    { unfold s1. cbn [io_pipe]. by rewrite !Hd. }
    split.
    + intros a. rewrite Hs1. destruct a as [m| |f m|f| | |i m]; try reflexivity; unfold io_step; cbn [io_parent io_procs io_pipe].
      * unfold existsb, holds. cbn [pr_prog pr_open orb]. by rewrite (Htf _ _ FIn) by apply Hf.
      * destruct i as [|i]; [|by destruct i]. cbn [lookup list_lookup]. unfold child_step. cbn [pr_prog pr_open fd_eqb negb orb io_pipe].
        by rewrite (Htf _ _ FOut) by apply Hf.
    + split; [exists ["i"%char]; split; [by rewrite Hs1|done]|]. split; [apply Hf|]. clearbody s1. pose proof (f_equal io_procs Hs1) as Hp. cbn [io_procs] in Hp. rewrite Hp. split; [by eexists 0, _|].
      intros [|i] q Hq; [|by destruct i]. injection Hq as <-. right. eexists FOut, _, _. split; [reflexivity|]. split; [done|]. split; [done|]. split; [done|apply Hf].
Qed.
Print Assumptions exchange_always_ends_refuted.

(** Whether a process that succeeds without reading its input makes the runner panic depends on the schedule. *)
Theorem unread_input_is_harmless_refuted K : 1 <= K ->
  exists input p acts s t acts' s' t',
    exchange K false (Some input) p acts s t /\ (exists out err fd3, io_parent s = Finished 0 out err fd3) /\
    exchange K false (Some input) p acts' s' t' /\ panicked s'.
Proof.
  intros HK. destruct K as [|K]; [lia|].
  eexists ["i"%char], (Close FThree (Exit 0)), [ParentWrite 1; ParentClose; Child 0 0; ParentEof FOut; ParentEof FErr; ParentEof FThree; ParentWait; ParentDone], _, _, [Child 0 0; ParentWrite 1], _, _.
  split; [split; [done|reflexivity]|]. split; [by eexists _, _, _|]. split; [split; [done|reflexivity]|]. done.
Qed.
Print Assumptions unread_input_is_harmless_refuted.

(** The report of a task can wait forever although its process has ended: a process that it has started in the background
    and that has inherited stdout keeps the pipe open. *)
CoFixpoint daemon : prog := Read 0 (fun _ => daemon).
Lemma daemon_unfold : daemon = Read 0 (fun _ => daemon).
Proof. set (q := daemon) at 1. assert (q = match q with Exit r => Exit r | Write f b k => Write f b k | Read n k => Read n k | Close f k => Close f k | Fork c k => Fork c k end) as -> by (by destruct q). reflexivity. Qed.
Lemma daemon_stays K s a s' os o : io_procs s !! 1 = Some (Proc daemon o) -> io_step K s a = Some (s', os) -> io_procs s' !! 1 = Some (Proc daemon o).
Proof.
  intros H1 H2.
  assert (Hc : (exists i m q, io_procs s !! i = Some q /\ child_step K s i m q = Some (s', os)) \/ io_procs s' = io_procs s) by (destruct (step_cases _ _ _ _ _ H2) as [H|[H _]]; auto).
  destruct Hc as [(i & m & q & Hi & Hc)| -> ]; [|done]. destruct (decide (i = 1)) as [->|Hne].
  - rewrite H1 in Hi. injection Hi as <-. unfold child_step in Hc. cbn [pr_prog] in Hc. rewrite daemon_unfold in Hc. injection Hc as <- <-.
    cbn [io_procs pr_open]. apply list_lookup_insert. by eapply lookup_lt_Some.
  - unfold child_step in Hc.
    repeat match type of Hc with
    | (if ?b then _ else _) = _ => destruct b; try done
    | match ?b with _ => _ end = _ => destruct b eqn:?; try done
    end; injection Hc as <- <-; cbn [io_procs]; rewrite ?lookup_app; by rewrite list_lookup_insert_ne, H1 by done.
Qed.
Theorem report_follows_exit_refuted K : 1 <= K ->
  exists p acts s t, exchange K false None p acts s t /\ (exists o, io_procs s !! 0 = Some (Proc (Exit 0) o)) /\
    forall acts' s' t', exchange K false None p (acts ++ acts') s' t' -> ~ finished s' /\ ~ stuck K s'.
Proof.
  intros HK. eexists (Fork daemon (Exit 0)), [Child 0 0], _, _. split; [split; [done|reflexivity]|]. split; [by eexists|].
  intros acts' s' t' He.
  assert (Hd : exists o, o FOut = true /\ io_procs s' !! 1 = Some (Proc daemon o)).
  { destruct He as [_ Hr]. apply io_run_app in Hr as (s1 & t1 & t2 & H1 & H2 & ->). injection H1 as <- <-.
    eexists. split; [|]. 2: { revert s' t2 H2. induction acts' as [|a acts' IH] using rev_ind; intros s' t2 H.
      - injection H as <- <-. reflexivity.
      - apply io_run_snoc in H as (s1 & t1 & os & H1 & H2 & ->). eapply daemon_stays; [|done]. by eapply IH. }
    done. }
  destruct Hd as (o & Ho & Hd). split.
  - intros (raw & out & err & fd3 & Hf). destruct (output_is_complete _ _ _ _ _ _ _ _ _ _ _ He Hf) as (_ & _ & _ & _ & H).
    specialize (H 1 _ FOut Hd). unfold holds in H. cbn [pr_prog pr_open] in H. rewrite daemon_unfold, Ho in H. by specialize (H ltac:(done)).
  - intros Hs. destruct He as [_ Hr]. pose proof (inv_run _ _ _ _ _ _ _ Hr) as HI. destruct (stuck_cases K HK _ _ _ HI Hs) as [[_ H]|[H|H]].
    + destruct (H _ _ Hd) as [raw H']. cbn [pr_prog] in H'. by rewrite daemon_unfold in H'.
    + pose proof (i_in _ _ _ _ HI) as Hi. rewrite H in Hi. destruct Hi as (rest & Hne & Hi). simpl in Hi. by destruct (read_in t'), (io_pipe s' FIn), rest.
    + destruct H as (_ & _ & _ & H). destruct (H _ _ Hd) as [[raw H']|(f & b & k & H' & _)]; cbn [pr_prog] in H'; by rewrite daemon_unfold in H'.
Qed.
Print Assumptions report_follows_exit_refuted.
