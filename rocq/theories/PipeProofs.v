From Verif Require Export PipeSpec.

Lemma fd_eqb_spec f g : fd_eqb f g = true <-> f = g.
Proof. by destruct f, g. Qed.
Lemma fd_eqb_refl f : fd_eqb f f = true.
Proof. by destruct f. Qed.
Lemma fd_eqb_ne f g : f <> g -> fd_eqb f g = false.
Proof. by destruct f, g. Qed.
Lemma fd_dec (f g : fd) : f = g \/ f <> g.
Proof. by destruct f, g; auto. Qed.
Lemma set_same {A} f (x : A) m : set f x m f = x.
Proof. unfold set. by rewrite fd_eqb_refl. Qed.
Lemma set_other {A} f g (x : A) m : f <> g -> set f x m g = m g.
Proof. intros. unfold set. by rewrite fd_eqb_ne. Qed.

Lemma existsb_lookup {A} (P : A -> bool) l : existsb P l = true <-> exists i x, l !! i = Some x /\ P x = true.
Proof.
  rewrite existsb_exists. split.
  - intros (x & Hx & HP). apply elem_of_list_In, elem_of_list_lookup in Hx as [i Hi]. eauto.
  - intros (i & x & Hi & HP). exists x. split; [|done]. by eapply elem_of_list_In, elem_of_list_lookup_2.
Qed.
Lemma existsb_false {A} (P : A -> bool) l : existsb P l = false <-> forall i x, l !! i = Some x -> P x = false.
Proof.
  split.
  - intros H i x Hi. destruct (P x) eqn:E; [|done]. assert (existsb P l = true) by (apply existsb_lookup; eauto). congruence.
  - intros H. destruct (existsb P l) eqn:E; [|done]. apply existsb_lookup in E as (i & x & Hi & E). by rewrite (H _ _ Hi) in E.
Qed.

Section pipe.
Context (K : nat).

Lemma io_run_app s acts acts' s2 t : io_run K s (acts ++ acts') = Some (s2, t) <->
  exists s1 t1 t2, io_run K s acts = Some (s1, t1) /\ io_run K s1 acts' = Some (s2, t2) /\ t = t1 ++ t2.
Proof.
  revert s t. induction acts as [|a acts IH]; intros s t; simpl.
  - split; [intros H; by exists s, [], t|]. intros (s1 & t1 & t2 & [= <- <-] & H & ->). done.
  - destruct (io_step K s a) as [[s1 os]|]; [|split; [done|by intros (? & ? & ? & ? & _)]]. split.
    + intros H. destruct (io_run K s1 (acts ++ acts')) as [[s3 t3]|] eqn:E; [|done]. injection H as -> <-.
      apply IH in E as (s4 & t4 & t5 & E1 & E2 & ->). rewrite E1. exists s4, (os ++ t4), t5. by rewrite app_assoc.
    + intros (s4 & t4 & t5 & H & H2 & ->). destruct (io_run K s1 acts) as [[s3 t3]|] eqn:E; [|done]. injection H as -> <-.
      replace (io_run K s1 (acts ++ acts')) with (Some (s2, t3 ++ t5)); [by rewrite app_assoc|]. symmetry. apply IH. eauto 10.
Qed.
Lemma io_run_snoc s acts a s2 t : io_run K s (acts ++ [a]) = Some (s2, t) ->
  exists s1 t1 os, io_run K s acts = Some (s1, t1) /\ io_step K s1 a = Some (s2, os) /\ t = t1 ++ os.
Proof.
  intros H. apply io_run_app in H as (s1 & t1 & t2 & H1 & H2 & ->). simpl in H2. destruct (io_step K s1 a) as [[s3 os]|] eqn:E; [|done].
  injection H2 as -> <-. exists s1, t1, os. by rewrite app_nil_r.
Qed.

(** What a step of a process does. *)
Inductive effect (s s' : io) (i : nat) (p : proc) : list ioobs -> Prop :=
| e_none : io_pipe s' = io_pipe s -> effect s s' i p []
| e_wrote f b : f <> FIn -> b <> [] -> holds f p = true -> length (io_pipe s f) + length b <= K ->
    io_pipe s' = set f (io_pipe s f ++ b) (io_pipe s) -> effect s s' i p [Wrote i f b]
| e_read b r : b <> [] -> io_pipe s FIn = b ++ r -> io_pipe s' = set FIn r (io_pipe s) -> effect s s' i p [ReadIn i b]
| e_eof : io_pipe s' = io_pipe s -> io_pipe s FIn = [] -> feeding (io_parent s) = false -> effect s s' i p [ReadEof i].

Lemma transfer_spec m room len : transfer m room len = true <-> 0 < m /\ m <= room /\ m <= len.
Proof. unfold transfer. rewrite !andb_true_iff, Nat.ltb_lt, !Nat.leb_le. tauto. Qed.

Lemma child_effect s i m p s' os : child_step K s i m p = Some (s', os) -> effect s s' i p os /\ io_parent s' = io_parent s.
Proof.
  unfold child_step. destruct (pr_prog p) as [raw|f b k|n k|f k|c k] eqn:Ep; [done| | | |].
  - destruct (fd_eqb f FIn || negb (pr_open p f)) eqn:Eo; [intros [= <- <-]; by split; [constructor|]|].
    apply orb_false_iff in Eo as [E1 E2]. destruct b as [|x b]; [intros [= <- <-]; by split; [constructor|]|].
    destruct (transfer _ _ _) eqn:Et; [|done]. apply transfer_spec in Et as (T1 & T2 & T3). intros [= <- <-]. split; [|done].
    apply e_wrote; try done.
    + intros ->. by rewrite fd_eqb_refl in E1.
    + by destruct m; [lia|].
    + unfold holds. rewrite Ep. by destruct (pr_open p f).
    + rewrite take_length. lia.
  - destruct (Nat.eqb n 0 || _) eqn:Eo; [intros [= <- <-]; by split; [constructor|]|].
    destruct (io_pipe s FIn) as [|x b] eqn:Eb.
    + destruct (feeding (io_parent s)) eqn:Ef; [done|]. intros [= <- <-]. by split; [apply e_eof|].
    + destruct (transfer _ _ _) eqn:Et; [|done]. apply transfer_spec in Et as (T1 & T2 & T3). intros [= <- <-]. split; [|done].
      eapply e_read; [|by rewrite Eb, <- (take_drop m (x :: b)) at 1|done]. by destruct m; [lia|].
  - intros [= <- <-]. by split; [constructor|].
  - intros [= <- <-]. by split; [constructor|].
Qed.

(** What becomes of the list of processes. *)
Lemma child_procs s i m p s' os : io_procs s !! i = Some p -> child_step K s i m p = Some (s', os) ->
  exists q new, io_procs s' = <[i := q]> (io_procs s) ++ new /\ length new <= 1 /\ (forall raw, pr_prog p <> Exit raw) /\
    (forall f x, x = q \/ In x new -> holds f x = true -> holds f p = true).
Proof.
  intros Hi. unfold child_step. destruct (pr_prog p) as [raw|f b k|n k|f k|c k] eqn:Ep; [done| | | |].
  - intros H. assert (exists k', s' = Io (<[i:=Proc k' (pr_open p)]> (io_procs s)) (io_pipe s') (io_parent s')) as [k' E].
    { destruct (_ || _); [injection H as <- _; eauto|]. destruct b; [injection H as <- _; eauto|]. destruct (transfer _ _ _); [|done]. injection H as <- _. eauto. }
    rewrite E. exists (Proc k' (pr_open p)), []. rewrite app_nil_r. split; [done|]. split; [simpl; lia|]. split; [done|].
    intros g x [->|[]]. unfold holds. rewrite Ep. simpl. by destruct k'.
  - intros H. assert (exists k', s' = Io (<[i:=Proc k' (pr_open p)]> (io_procs s)) (io_pipe s') (io_parent s')) as [k' E].
    { destruct (_ || _); [injection H as <- _; eauto|]. destruct (io_pipe s FIn). - destruct (feeding _); [done|]. injection H as <- _; eauto.
      - destruct (transfer _ _ _); [|done]. injection H as <- _. eauto. }
    rewrite E. exists (Proc k' (pr_open p)), []. rewrite app_nil_r. split; [done|]. split; [simpl; lia|]. split; [done|].
    intros g x [->|[]]. unfold holds. rewrite Ep. simpl. by destruct k'.
  - intros [= <- <-]. exists (Proc k (set f false (pr_open p))), []. rewrite app_nil_r. split; [done|]. split; [simpl; lia|]. split; [done|].
    intros g x [->|[]]. unfold holds. rewrite Ep. simpl. destruct k; try done; unfold set; by destruct (fd_eqb f g).
  - intros [= <- <-]. exists (Proc k (pr_open p)), [Proc c (pr_open p)]. split; [done|]. split; [simpl; lia|]. split; [done|].
    intros g x [->|[<-|[]]]; unfold holds; rewrite Ep; simpl; [by destruct k|by destruct c].
Qed.
Lemma no_holder_stays s i m p s' os f : io_procs s !! i = Some p -> child_step K s i m p = Some (s', os) ->
  existsb (holds f) (io_procs s) = false -> existsb (holds f) (io_procs s') = false.
Proof.
  intros Hi Hs. destruct (child_procs _ _ _ _ _ _ Hi Hs) as (q & new & -> & _ & _ & Hh). rewrite !existsb_false. intros H j x Hj.
  destruct (holds f x) eqn:E; [|done]. exfalso.
  assert (x = q \/ In x new \/ io_procs s !! j = Some x) as [Hx|[Hx|Hx]].
  { apply lookup_app_Some in Hj as [Hj|[_ Hj]].
    - apply list_lookup_insert_Some in Hj as [(_ & -> & _)|[_ Hj]]; tauto.
    - right. left. by eapply elem_of_list_In, elem_of_list_lookup_2. }
  - specialize (Hh f x (or_introl Hx) E). by rewrite (H _ _ Hi) in Hh.
  - specialize (Hh f x (or_intror Hx) E). by rewrite (H _ _ Hi) in Hh.
  - by rewrite (H _ _ Hx) in E.
Qed.
Lemma root_stays s i m p s' os raw o : io_procs s !! i = Some p -> child_step K s i m p = Some (s', os) ->
  io_procs s !! 0 = Some (Proc (Exit raw) o) -> io_procs s' !! 0 = Some (Proc (Exit raw) o).
Proof.
  intros Hi Hs H0. destruct (child_procs _ _ _ _ _ _ Hi Hs) as (q & new & -> & _ & Hp & _).
  assert (0 < length (io_procs s)) by (by eapply lookup_lt_Some). rewrite lookup_app_l by (by rewrite insert_length).
  destruct i as [|i]; [|by rewrite list_lookup_insert_ne by done]. rewrite H0 in Hi. injection Hi as <-. by destruct (Hp raw).
Qed.

(** ** What was written and read *)
Lemma written_app f t t' : written f (t ++ t') = written f t ++ written f t'.
Proof. unfold written. by rewrite map_app, concat_app. Qed.
Lemma read_in_app t t' : read_in (t ++ t') = read_in t ++ read_in t'.
Proof. unfold read_in. by rewrite map_app, concat_app. Qed.

Lemma read_in_wrote t i f b : read_in (t ++ [Wrote i f b]) = read_in t.
Proof. rewrite read_in_app. apply app_nil_r. Qed.
Lemma read_in_read t i b : read_in (t ++ [ReadIn i b]) = read_in t ++ b.
Proof. rewrite read_in_app. unfold read_in at 2. simpl. by rewrite app_nil_r. Qed.
Lemma read_in_eof t i : read_in (t ++ [ReadEof i]) = read_in t.
Proof. rewrite read_in_app. apply app_nil_r. Qed.
Lemma written_wrote t i f g b : written g (t ++ [Wrote i f b]) = written g t ++ (if fd_eqb g f then b else []).
Proof. rewrite written_app. unfold written at 2. simpl. by rewrite app_nil_r. Qed.
Lemma written_read g t i b : written g (t ++ [ReadIn i b]) = written g t.
Proof. rewrite written_app. apply app_nil_r. Qed.
Lemma written_eof g t i : written g (t ++ [ReadEof i]) = written g t.
Proof. rewrite written_app. apply app_nil_r. Qed.

Definition over_for (f : fd) (p : parent) : bool :=
  match p with Reading _ eof _ => eof f | Finished _ _ _ _ => true | _ => false end.

Record Inv (input : bytes) (s : io) (t : list ioobs) : Prop := {
  i_in : match io_parent s with
         | Feeding rest => read_in t ++ io_pipe s FIn ++ rest = input
         | Panicked => exists rest, rest <> [] /\ read_in t ++ io_pipe s FIn ++ rest = input
         | _ => read_in t ++ io_pipe s FIn = input
         end;
  i_out : forall f, f <> FIn ->
          match io_parent s with
          | Feeding _ | Panicked => written f t = io_pipe s f
          | Reading got _ _ => written f t = got f ++ io_pipe s f
          | Finished _ o e d => written f t = match f with FOut => o | FErr => e | FThree => d | FIn => [] end
          end;
  i_over : forall f, f <> FIn -> over_for f (io_parent s) = true -> existsb (holds f) (io_procs s) = false /\ io_pipe s f = [];
  i_eofin : forall got eof st, io_parent s = Reading got eof st -> eof FIn = true;
  i_root : io_procs s <> [] /\
           match io_parent s with
           | Reading _ _ (Some raw) | Finished raw _ _ _ => exists o, io_procs s !! 0 = Some (Proc (Exit raw) o)
           | _ => True
           end;
  i_eof : forall t1 i t2, t = t1 ++ ReadEof i :: t2 -> read_in t1 = input;
  i_full : forall f, length (io_pipe s f) <= K
}.

Lemma inv_start console input p : Inv (input_bytes input) (io_start console input p) [].
Proof.
  destruct input as [b|]; constructor; simpl; try (intros; lia); try done; try (by intros [|? ?]).
  - intros f Hf Ho. by rewrite fd_eqb_spec in Ho.
  - by intros got eof st [= <- <- <-].
Qed.

Lemma inv_child input s t i m p s' os : Inv input s t -> io_parent s <> Panicked -> io_procs s !! i = Some p -> child_step K s i m p = Some (s', os) -> Inv input s' (t ++ os).
Proof.
  intros HI Hnp Hi Hs. destruct (child_effect _ _ _ _ _ _ Hs) as [He Hp]. constructor.
  - pose proof (i_in _ _ _ HI) as H. rewrite Hp. destruct He as [E|f b Hf Hb Hh Hk E|b r Hb Eb E|E Ein Ef]; rewrite E.
    + by rewrite app_nil_r.
    + rewrite read_in_wrote, (set_other f FIn) by done. done.
    + rewrite read_in_read, set_same. rewrite Eb in H. destruct (io_parent s); rewrite <- ?app_assoc in *; done.
    + by rewrite read_in_eof.
  - intros g Hg. pose proof (i_out _ _ _ HI g Hg) as H. rewrite Hp. destruct He as [E|f b Hf Hb Hh Hk E|b r Hb Eb E|E Ein Ef]; rewrite E.
    + by rewrite app_nil_r.
    + rewrite written_wrote. destruct (fd_dec f g) as [<-|Hne].
      * rewrite fd_eqb_refl, set_same. destruct (io_parent s) as [rest|got eof st|raw o e d|] eqn:Epar; try (by rewrite H, ?app_assoc).
        exfalso. destruct (i_over _ _ _ HI f Hf) as [Hn _]; [by rewrite Epar|]. rewrite existsb_false in Hn. rewrite (Hn _ _ Hi) in Hh. done.
      * rewrite (fd_eqb_ne g f) by done. rewrite set_other by done. by rewrite app_nil_r.
    + rewrite written_read. by rewrite (set_other FIn g) by done.
    + by rewrite written_eof.
  - intros g Hg Ho. rewrite Hp in Ho. destruct (i_over _ _ _ HI g Hg Ho) as [H1 H2]. split; [by eapply no_holder_stays|].
    destruct He as [E|f b Hf Hb Hh Hk E|b r Hb Eb E|E Ein Ef]; rewrite E; try done.
    + destruct (fd_dec f g) as [<-|Hne]; [|by rewrite set_other].
      rewrite existsb_false in H1. by rewrite (H1 _ _ Hi) in Hh.
    + by rewrite (set_other FIn g).
  - rewrite Hp. apply (i_eofin _ _ _ HI).
  - destruct (i_root _ _ _ HI) as [H1 H2]. split.
    + destruct (child_procs _ _ _ _ _ _ Hi Hs) as (q & new & -> & _). intros E. apply app_eq_nil in E as [E _].
      apply (f_equal length) in E. rewrite insert_length in E. simpl in E. by destruct (io_procs s).
    + rewrite Hp. destruct (io_parent s) as [rest|got eof [raw|]|raw o e d|] eqn:Epar; try done.
      * destruct H2 as [o H2]. exists o. by apply (root_stays _ _ _ _ _ _ _ _ Hi Hs H2).
      * destruct H2 as [o' H2]. exists o'. by apply (root_stays _ _ _ _ _ _ _ _ Hi Hs H2).
  - intros t1 j t2 E. destruct He as [_|f b Hf Hb Hh Hk _|b r Hb Eb _|_ Ein Ef].
    + rewrite app_nil_r in E. by eapply (i_eof _ _ _ HI).
    + destruct t2 as [|x t2 _] using rev_ind; [by apply app_inj_tail in E as [_ E]|].
      rewrite app_comm_cons, List.app_assoc in E. apply app_inj_tail in E as [E _]. by eapply (i_eof _ _ _ HI).
    + destruct t2 as [|x t2 _] using rev_ind; [by apply app_inj_tail in E as [_ E]|].
      rewrite app_comm_cons, List.app_assoc in E. apply app_inj_tail in E as [E _]. by eapply (i_eof _ _ _ HI).
    + destruct t2 as [|x t2 _] using rev_ind.
      * apply app_inj_tail in E as [<- _]. pose proof (i_in _ _ _ HI) as H. destruct (io_parent s) as [rest|got eof st|raw o e d|] eqn:Epar; try done.
        -- by rewrite Ein, app_nil_r in H.
        -- by rewrite Ein, app_nil_r in H.
      * rewrite app_comm_cons, List.app_assoc in E. apply app_inj_tail in E as [E _]. by eapply (i_eof _ _ _ HI).
  - intros g. pose proof (i_full _ _ _ HI) as H. destruct He as [E|f b Hf Hb Hh Hk E|b r Hb Eb E|E Ein Ef]; rewrite E; try done.
    + destruct (fd_dec f g) as [<-|Hne]; [|by rewrite set_other]. rewrite set_same, app_length. done.
    + destruct (fd_dec FIn g) as [<-|Hne]; [|by rewrite set_other]. rewrite set_same. specialize (H FIn). rewrite Eb, app_length in H. lia.
Qed.

Lemma inv_step input s t a s' os : Inv input s t -> io_step K s a = Some (s', os) -> Inv input s' (t ++ os).
Proof.
  intros HI Hs. unfold io_step in Hs. pose proof (i_in _ _ _ HI) as Hin. pose proof (i_out _ _ _ HI) as Hout. pose proof (i_over _ _ _ HI) as Hover.
  pose proof (i_eofin _ _ _ HI) as Heofin. pose proof (i_root _ _ _ HI) as Hroot. pose proof (i_eof _ _ _ HI) as Heof. pose proof (i_full _ _ _ HI) as Hfull.
  destruct (io_parent s) as [rest|got eof st|raw o e d|] eqn:Ep; [| | |done].
  - destruct a as [m| |f m|f| | |i m]; try (by destruct rest).
    + destruct rest as [|x rest]; [done|]. destruct (existsb (holds FIn) (io_procs s)) eqn:Eh.
      * destruct (transfer _ _ _) eqn:Et; [|done]. apply transfer_spec in Et as (T1 & T2 & T3). injection Hs as <- <-. rewrite app_nil_r.
        constructor; cbn [io_parent io_pipe io_procs]; try done.
        -- by rewrite set_same, <- app_assoc, take_drop.
        -- intros f Hf. rewrite set_other by done. by apply Hout.
        -- intros f. destruct (fd_dec FIn f) as [<-|Hne]; [|by rewrite set_other]. rewrite set_same, app_length, take_length. specialize (Hfull FIn). lia.
      * injection Hs as <- <-. rewrite app_nil_r. constructor; cbn; try done. by exists (x :: rest).
    + destruct rest as [|x rest]; [|done]. injection Hs as <- <-. rewrite app_nil_r. constructor; cbn; try done.
      * by rewrite app_nil_r in Hin.
      * intros f Hf Ho. by rewrite fd_eqb_spec in Ho.
      * by intros g eof st [= <- <- <-].
    + assert (exists p, io_procs s !! i = Some p /\ child_step K s i m p = Some (s', os)) as (p & Hi & Hc) by (destruct rest; (destruct (io_procs s !! i) as [p|] eqn:E; [by exists p|done])).
      eapply inv_child; try done. by rewrite Ep.
  - destruct a as [m| |f m|f| | |i m]; try (by destruct st).
    + destruct (negb (eof f) && _) eqn:Et; [|by destruct st]. apply andb_true_iff in Et as [Ee Et]. apply transfer_spec in Et as (T1 & T2 & _).
      assert (f <> FIn) as Hf. { intros ->. by rewrite (Heofin _ _ _ eq_refl) in Ee. }
      assert (s' = Io (io_procs s) (set f (drop m (io_pipe s f)) (io_pipe s)) (Reading (set f (got f ++ take m (io_pipe s f)) got) eof st) /\ os = []) as [-> ->] by (destruct st; by injection Hs as <- <-).
      rewrite app_nil_r. constructor; cbn [io_parent io_pipe io_procs]; try done.
      * by rewrite (set_other f FIn).
      * intros g Hg. specialize (Hout g Hg). destruct (fd_dec f g) as [<-|Hne]; [|by rewrite !set_other].
        by rewrite !set_same, <- app_assoc, take_drop.
      * intros g Hg Ho. destruct (Hover g Hg Ho) as [H1 H2]. split; [done|]. destruct (fd_dec f g) as [<-|Hne]; [|by rewrite set_other]. simpl in Ho. by rewrite Ho in Ee.
      * intros g e2 st2 [= _ <- _]. by eapply Heofin.
      * intros g. destruct (fd_dec f g) as [<-|Hne]; [|by rewrite set_other]. rewrite set_same, drop_length. specialize (Hfull f). lia.
    + destruct (eof f) eqn:Ee; [by destruct st|]. destruct (io_pipe s f) eqn:Epf; [|by destruct st]. destruct (existsb (holds f) (io_procs s)) eqn:Eh; [by destruct st|].
      assert (s' = with_parent s (Reading got (set f true eof) st) /\ os = []) as [-> ->] by (destruct st; by injection Hs as <- <-).
      rewrite app_nil_r. constructor; cbn; try done.
      * intros g Hg Ho. destruct (fd_dec f g) as [<-|Hne]; [by split|]. rewrite set_other in Ho by done. by apply Hover.
      * intros g e2 st2 [= _ <- _]. unfold set. destruct (fd_eqb f FIn); [done|]. by eapply Heofin.
    + destruct st; [done|]. destruct (io_procs s) as [|[[raw| | | |] o] ps] eqn:Eps; try done. injection Hs as <- <-. rewrite app_nil_r.
      constructor; cbn; rewrite ?Eps; try done.
      * intros g e2 st2 [= _ <- _]. by eapply Heofin.
      * split; [done|]. by exists o.
    + destruct st as [raw|]; [|done]. destruct (eof FOut && eof FErr && eof FThree) eqn:Ee; [|done]. apply andb_true_iff in Ee as [Ee E3]. apply andb_true_iff in Ee as [E1 E2].
      injection Hs as <- <-. rewrite app_nil_r. assert (forall f, f <> FIn -> existsb (holds f) (io_procs s) = false /\ io_pipe s f = []) as Hall by (intros [] Hf; try done; by apply Hover).
      constructor; cbn; try done.
      * intros f Hf. rewrite (Hout f Hf), (proj2 (Hall f Hf)), app_nil_r. by destruct f.
      * intros f Hf _. by apply Hall.
    + assert (exists p, io_procs s !! i = Some p /\ child_step K s i m p = Some (s', os)) as (p & Hi & Hc) by (destruct st; (destruct (io_procs s !! i) as [p|] eqn:E; [by exists p|done])).
      eapply inv_child; try done. by rewrite Ep.
  - destruct a as [m| |f m|f| | |i m]; try done. destruct (io_procs s !! i) as [p|] eqn:Hi; [|done]. eapply inv_child; try done. by rewrite Ep.
Qed.

Lemma inv_run console input p acts s t : io_run K (io_start console input p) acts = Some (s, t) -> Inv (input_bytes input) s t.
Proof.
  revert s t. induction acts as [|a acts IH] using rev_ind; intros s t H.
  - injection H as <- <-. apply inv_start.
  - apply io_run_snoc in H as (s1 & t1 & os & H1 & H2 & ->). eapply inv_step; [by apply IH|done].
Qed.
End pipe.
