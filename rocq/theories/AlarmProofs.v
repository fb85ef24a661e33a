(** Proofs for the watcher of slurm's error file and for placeholders. *)
From Verif Require Import JsonProofs Utf8Proofs AlarmSpec.
From stdpp Require Import prelude.
Open Scope list_scope.

(** ** Words *)
Lemma starts_with_spec p s : starts_with p s = true <-> exists b, s = p ++ b.
Proof.
  revert s. induction p as [|a p IH]; intros s; cbn [starts_with].
  - split; [intros _; by exists s|done].
  - destruct s as [|c s]; [split; [done|intros [b [=]]]|]. destruct (Ascii.eqb_spec a c) as [->|Hn]; cbn [andb].
    + rewrite IH. split; intros [b Hb]; exists b; [by rewrite Hb|by injection Hb].
    + split; [done|]. intros [b [= ? ?]]. congruence.
Qed.
Lemma contains_spec p s : contains p s = true <-> occurs p s.
Proof.
  unfold occurs. induction s as [|c s IH]; cbn [contains]; rewrite orb_true_iff, starts_with_spec.
  - split.
    + intros [[b Hb]|?]; [|done]. by exists [], b.
    + intros (a & b & Hb). left. symmetry in Hb. apply app_eq_nil in Hb as [-> Hb]. exists b. by rewrite <- Hb.
  - rewrite IH. split.
    + intros [[b Hb]|(a & b & Hb)]; [by exists [], b|]. exists (c :: a), b. by rewrite Hb.
    + intros (a & b & Hb). destruct a as [|x a]; [left; by exists b|]. injection Hb as -> ->. right. by exists a, b.
Qed.

Lemma shown_utf8 s : is_utf8 s -> shown s = s.
Proof. unfold shown. rewrite <- utf8_valid_spec. by intros ->. Qed.
Lemma shown_other s : ~ is_utf8 s -> shown s = B "Unable to read slurm error file. Utf8 issue?".
Proof. unfold shown. rewrite <- utf8_valid_spec. by destruct (utf8_valid s). Qed.
Lemma reported_shown s : reported s (shown s).
Proof. split; [apply shown_utf8|apply shown_other]. Qed.

Lemma alarm_word s : is_alarm s = true <-> has_word s.
Proof.
  unfold is_alarm, has_word, FINAL_MESSAGES, alarm_words. rewrite orb_true_iff, existsb_exists. setoid_rewrite contains_spec. cbn [In]. split.
  - intros [(w & [<-|[<-|[<-|[]]]] & H)|H]; eexists; (split; [|exact H]); auto 6.
  - intros (w & [<-|[<-|[<-|[<-|[]]]]] & H); [left|left|left|by right]; eexists; (split; [|exact H]); auto 6.
Qed.
Lemma alarm_spec s : is_alarm (shown s) = true <-> alarming s.
Proof.
  rewrite alarm_word. unfold alarming. destruct (utf8_valid s) eqn:E.
  - apply utf8_valid_spec in E. rewrite (shown_utf8 _ E). tauto.
  - assert (E' : ~ is_utf8 s) by (by rewrite <- utf8_valid_spec, E). rewrite (shown_other _ E'). split; [tauto|]. intros _.
    exists "Unable to read"%string. split; [cbn; auto|]. exists [], (B " slurm error file. Utf8 issue?"). reflexivity.
Qed.
Lemma has_word_app s t : has_word s -> has_word (s ++ t).
Proof. intros (w & Hw & a & b & ->). exists w. split; [done|]. exists a, (b ++ t). by rewrite <- !List.app_assoc. Qed.
Lemma is_utf8_app s t : is_utf8 s -> is_utf8 t -> is_utf8 (s ++ t).
Proof. rewrite <- !utf8_valid_spec. apply utf8_app. Qed.

(** ** Runs *)
Section runs.
Variable cf : RemoteModel.config.

Lemma alarm_run_snoc s acts a s' os : alarm_run cf s (acts ++ [a]) = Some (s', os) ->
  exists s1 os1 os2, alarm_run cf s acts = Some (s1, os1) /\ alarm_step cf s1 a = Some (s', os2) /\ os = os1 ++ os2.
Proof.
  revert s os. induction acts as [|x acts IH]; intros s os; cbn [alarm_run app].
  - destruct (alarm_step cf s a) as [[s1 o1]|] eqn:E; [|done]. intros [= <- <-]. exists s, [], o1. split; [done|]. split; [done|]. by rewrite app_nil_r.
  - destruct (alarm_step cf s x) as [[s1 o1]|]; [|done]. destruct (alarm_run cf s1 (acts ++ [a])) as [[s2 o2]|] eqn:E; [|done]. intros [= <- <-].
    destruct (IH _ _ E) as (s3 & o3 & o4 & H1 & H2 & ->). exists s3, (o1 ++ o3), o4. rewrite H1. split; [done|]. split; [done|]. by rewrite List.app_assoc.
Qed.

Lemma run_file f acts s os : alarm_run cf (alarm_start f) acts = Some (s, os) -> al_file s = f ++ written acts.
Proof.
  revert s os. induction acts as [|a acts IH] using rev_ind; intros s os H.
  - injection H as <- <-. unfold written. cbn. by rewrite app_nil_r.
  - apply alarm_run_snoc in H as (s1 & o1 & o2 & H1 & H2 & ->). specialize (IH _ _ H1). unfold written in *. rewrite map_app, concat_app, List.app_assoc, <- IH.
    cbn [map concat]. rewrite app_nil_r. destruct s1 as [file pos ev sn ch r]. cbn [alarm_step al_file] in *.
    destruct a; cbn [appended]; rewrite ?app_nil_r.
    + destruct (_ && _); [done|]. by injection H2 as <- <-.
    + by injection H2 as <- <-.
    + destruct sn; [done|]. destruct ev; [done|]. by injection H2 as <- <-.
    + destruct sn; [|done]. destruct ch; [done|]. by injection H2 as <- <-.
    + destruct ch; [|done]. destruct (remote_step _ _ _) as [[? ?]|]; [|done]. by injection H2 as <- <-.
    + destruct (from_watcher i); [done|]. destruct (remote_step _ _ _) as [[? ?]|]; [|done]. by injection H2 as <- <-.
Qed.

(** The first reading of an alarming text. *)
Definition first_alarm (f : bytes) (acts : list alarm_action) (s : bytes) : Prop :=
  exists a b, acts = a ++ WEvent :: b /\ s = f ++ written a /\ alarming s /\
    forall a' b', a = a' ++ WEvent :: b' -> ~ alarming (f ++ written a').
Definition no_alarm (f : bytes) (acts : list alarm_action) : Prop := forall a b, acts = a ++ WEvent :: b -> ~ alarming (f ++ written a).
Definition over (r : remote) : Prop := r = MSlurmEnd \/ r = MCleanup.

Lemma first_alarm_app f acts x s : first_alarm f acts s -> first_alarm f (acts ++ x) s.
Proof. intros (a & b & -> & H). exists a, (b ++ x). split; [by rewrite <- List.app_assoc|done]. Qed.
Lemma no_alarm_snoc f acts x : no_alarm f acts -> (x = WEvent -> ~ alarming (f ++ written acts)) -> no_alarm f (acts ++ [x]).
Proof.
  intros H Hx a b E. destruct b as [|y b] using rev_ind.
  - apply app_inj_tail in E as [-> ->]. by apply Hx.
  - clear IHb. apply (H a b). change (WEvent :: b ++ [y]) with ((WEvent :: b) ++ [y]) in E. rewrite List.app_assoc in E. by apply app_inj_tail in E as [-> _].
Qed.

Lemma not_slurm r i r' es e : from_watcher i = false -> remote_step cf r i = Some (r', es) -> e ∈ map ARunner es -> ~ slurm_end e.
Proof.
  intros Hf H He (tx & st & late & m & next & out & ->). apply elem_of_list_fmap in He as (x & [= <-] & He).
  destruct r, i; cbn in H, Hf; try discriminate H; try discriminate Hf; repeat (case_match; try discriminate H);
    injection H as <- <-; repeat (apply elem_of_cons in He as [He|He]; [discriminate He|]); by apply elem_of_nil in He.
Qed.
Lemma not_message (es : list remote_event) e : e ∈ map ARunner es -> ~ message e.
Proof. intros He (m & ->). by apply elem_of_list_fmap in He as (x & [=] & _). Qed.
Lemma over_step r i r' es : over r -> remote_step cf r i = Some (r', es) -> over r' /\ es = [].
Proof. intros [->| ->]; destruct i; cbn; try done; intros [= <- <-]; (split; [by right|done]). Qed.

(** The state of the first alarm. *)
Definition stage (f : bytes) (acts : list alarm_action) (s : alarm) (os : list alarm_obs) : Prop :=
  (no_alarm f acts /\ al_sending s = None /\ al_channel s = None /\ (forall o, o ∈ os -> ~ message o /\ ~ slurm_end o)) \/
  exists t, first_alarm f acts t /\
    ((al_sending s = Some (shown t) /\ al_channel s = None /\ (forall o, o ∈ os -> ~ message o /\ ~ slurm_end o)) \/
     (al_channel s = Some (shown t) /\ AMessage (shown t) ∈ os /\ (forall o, o ∈ os -> ~ slurm_end o)) \/
     (over (al_runner s) /\ AMessage (shown t) ∈ os /\
      forall tx st late m next out, ARunner (VEnd tx st late (Some m) next out) ∈ os -> st = Code (-15) /\ next = false /\ B m = shown t)).

Lemma stage_holds f acts s os : alarm_run cf (alarm_start f) acts = Some (s, os) -> stage f acts s os.
Proof.
  revert s os. induction acts as [|a acts IH] using rev_ind; intros s os H.
  - injection H as <- <-. left. split; [intros a b E; by destruct a|]. split; [done|]. split; [done|]. intros o Ho. by apply elem_of_nil in Ho.
  - apply alarm_run_snoc in H as (s1 & o1 & o2 & H1 & H2 & ->). specialize (IH _ _ H1). pose proof (run_file _ _ _ _ H1) as Hfile.
    destruct s1 as [file pos ev sn ch r]. cbn [al_file] in Hfile.
    assert (Hquiet : forall ev' file' pos', a <> WEvent -> o2 = [] -> s = Alarm file' pos' ev' sn ch r -> stage f (acts ++ [a]) s (o1 ++ o2)).
    { intros ev' file' pos' Hne -> ->. rewrite app_nil_r. destruct IH as [(I1 & I2)|(t & I1 & I2)].
      - left. split; [by apply no_alarm_snoc|]. exact I2.
      - right. exists t. split; [by apply first_alarm_app|]. exact I2. }
    cbn [alarm_step] in H2. destruct a.
    + destruct (_ && _); [done|]. injection H2 as <- <-. by eapply Hquiet.
    + injection H2 as <- <-. by eapply Hquiet.
    + clear Hquiet. destruct sn; [done|]. destruct ev; [done|]. injection H2 as <- <-. rewrite app_nil_r.
      destruct IH as [(I1 & _ & I2 & I3)|(t & I1 & I2)].
      * cbn [al_channel] in I2. subst ch. destruct (is_alarm (shown file)) eqn:E.
        -- right. exists file. split; [|left; split; [done|]; by split]. apply alarm_spec in E. exists acts, []. by rewrite <- Hfile.
        -- left. split; [|done]. apply no_alarm_snoc; [done|]. intros _. rewrite <- Hfile, <- alarm_spec, E. done.
      * right. exists t. split; [by apply first_alarm_app|]. destruct I2 as [(I2 & _)|[I2|I2]]; [done|right; left; exact I2|right; right; exact I2].
    + destruct sn as [m|]; [|done]. destruct ch; [done|]. injection H2 as <- <-. destruct IH as [(_ & I2 & _)|(t & I1 & I2)]; [done|].
      right. exists t. split; [by apply first_alarm_app|]. destruct I2 as [(I2 & _ & I3)|[(I2 & _)|(I2 & I3 & I4)]]; [|done|].
      * injection I2 as ->. right. left. split; [done|]. split; [apply elem_of_app; right; by apply elem_of_list_here|].
        intros o Ho. apply elem_of_app in Ho as [Ho|Ho]; [by apply I3|]. apply elem_of_list_singleton in Ho as ->. by intros (?&?&?&?&?&?&?).
      * right. right. split; [done|]. split; [apply elem_of_app; by left|]. intros tx st late m' next out Ho. apply elem_of_app in Ho as [Ho|Ho]; [by eapply I4|].
        by apply elem_of_list_singleton in Ho.
    + destruct ch as [m|]; [|done]. destruct (remote_step cf r _) as [[r' es]|] eqn:E; [|done]. injection H2 as <- <-.
      destruct IH as [(_ & _ & I2 & _)|(t & I1 & I2)]; [done|]. right. exists t. split; [by apply first_alarm_app|].
      destruct I2 as [(_ & I2 & _)|[(I2 & I3 & I4)|(I2 & I3 & I4)]]; [done| |].
      * injection I2 as ->. right. right.
        assert (Er : r' = MSlurmEnd /\ exists tx pid late, es = [VSigterm pid None; VEnd tx (Code (-15)) late (Some (S_of (shown t))) false None]).
        { destruct r; try discriminate E. cbn in E. injection E as <- <-. split; [done|]. by eexists _, _, _. }
        destruct Er as (-> & tx & pid & late & ->). split; [by left|]. split; [apply elem_of_app; by left|].
        intros tx' st' late' m' next' out' Ho. apply elem_of_app in Ho as [Ho|Ho].
        { destruct (I4 _ Ho). by eexists _, _, _, _, _, _. }
        cbn [map] in Ho. apply elem_of_cons in Ho as [Ho|Ho]; [discriminate Ho|]. apply elem_of_list_singleton in Ho. injection Ho as -> -> -> -> -> ->.
        split; [done|]. split; [done|]. apply list_ascii_of_string_of_list_ascii.
      * exfalso. cbn [al_runner] in I2. destruct I2 as [-> | ->]; discriminate E.
    + destruct (from_watcher i) eqn:Ei; [done|]. destruct (remote_step cf r i) as [[r' es]|] eqn:E; [|done]. injection H2 as <- <-.
      assert (Hns : forall o, o ∈ map ARunner es -> ~ slurm_end o) by (intros o; by eapply not_slurm).
      destruct IH as [(I1 & I2 & I3 & I4)|(t & I1 & I2)].
      * left. split; [by apply no_alarm_snoc|]. split; [done|]. split; [done|]. intros o Ho. apply elem_of_app in Ho as [Ho|Ho]; [by apply I4|].
        split; [by apply (not_message es)|by apply Hns].
      * right. exists t. split; [by apply first_alarm_app|]. destruct I2 as [(I2 & I3 & I4)|[(I2 & I3 & I4)|(I2 & I3 & I4)]].
        -- left. split; [done|]. split; [done|]. intros o Ho. apply elem_of_app in Ho as [Ho|Ho]; [by apply I4|].
           split; [by apply (not_message es)|by apply Hns].
        -- right. left. split; [done|]. split; [apply elem_of_app; by left|]. intros o Ho. apply elem_of_app in Ho as [Ho|Ho]; [by apply I4|by apply Hns].
        -- right. right. destruct (over_step _ _ _ _ I2 E) as [I2' ->]. split; [done|]. cbn [map]. rewrite app_nil_r. done.
Qed.

(** When nothing is pending the whole file has been read. *)
Definition caught_up (f : bytes) (acts : list alarm_action) (s : alarm) (os : list alarm_obs) : Prop :=
  al_events s = 0 -> Exists modifies acts -> alarming (al_file s) -> al_sending s = Some (shown (al_file s)) \/ AMessage (shown (al_file s)) ∈ os.
Lemma caught_up_holds f acts s os : alarm_run cf (alarm_start f) acts = Some (s, os) -> caught_up f acts s os.
Proof.
  revert s os. induction acts as [|a acts IH] using rev_ind; intros s os H.
  - intros _ He. inversion He.
  - apply alarm_run_snoc in H as (s1 & o1 & o2 & H1 & H2 & ->). specialize (IH _ _ H1).
    destruct s1 as [file pos ev sn ch r]. cbn [alarm_step] in H2. unfold caught_up in *. cbn [al_events al_file al_sending] in *. rewrite Exists_app. destruct a.
    + destruct (coalesced && Nat.eqb ev 0) eqn:E; [done|]. injection H2 as <- <-. cbn [al_events]. destruct coalesced; [|done]. cbn in E. by intros ->.
    + injection H2 as <- <-. done.
    + destruct sn; [done|]. destruct ev; [done|]. injection H2 as <- <-. cbn [al_events al_file al_sending]. intros -> _ Ha. left. apply alarm_spec in Ha. by rewrite Ha.
    + destruct sn as [m|]; [|done]. destruct ch; [done|]. injection H2 as <- <-. cbn [al_events al_file al_sending]. intros He [Hm|Hm] Ha; [|apply Exists_cons in Hm as [[]|Hm]; inversion Hm].
      right. apply elem_of_app. destruct (IH He Hm Ha) as [[= ->]|?]; [right; by apply elem_of_list_here|by left].
    + destruct ch as [m|]; [|done]. destruct (remote_step cf r _) as [[r' es]|] eqn:E; [|done]. injection H2 as <- <-. cbn [al_events al_file al_sending].
      intros He [Hm|Hm] Ha; [|apply Exists_cons in Hm as [[]|Hm]; inversion Hm]. rewrite elem_of_app. destruct (IH He Hm Ha); tauto.
    + destruct (from_watcher i); [done|]. destruct (remote_step cf r _) as [[r' es]|] eqn:E; [|done]. injection H2 as <- <-. cbn [al_events al_file al_sending].
      intros He [Hm|Hm] Ha; [|apply Exists_cons in Hm as [[]|Hm]; inversion Hm]. rewrite elem_of_app. destruct (IH He Hm Ha); tauto.
Qed.
End runs.

(** ** Placeholders *)
Notation PC := "%"%char.
Definition none_of (env : ascii -> option bytes) : Prop := forall l, env l = None.
Definition add (l : ascii) (v : bytes) (env : ascii -> option bytes) (k : ascii) : option bytes := if Ascii.eqb k l then Some v else env k.

Lemma filled_none env s : none_of env -> filled env s s.
Proof. intros H. induction s; constructor; [|done]. intros (l & s' & v & _ & Hv). by rewrite H in Hv. Qed.
Lemma filled_ext env env' s t : (forall l, env l = env' l) -> filled env s t -> filled env' s t.
Proof.
  intros H. induction 1; [constructor|constructor; [by rewrite <- H|done]|]. constructor; [|done].
  intros (l & s' & v & E & Hv). destruct H0. exists l, s', v. split; [done|]. by rewrite H.
Qed.

Lemma replace_plain l v w s : PC ∉ w -> replace l v (w ++ s) = w ++ replace l v s.
Proof.
  induction w as [|a w IH]; [done|]. intros H. apply not_elem_of_cons in H as [H1 H2]. cbn [app replace]. rewrite (IH H2).
  destruct (w ++ s) as [|b r] eqn:E.
  - apply app_eq_nil in E as [-> ->]. done.
  - destruct (Ascii.eqb_spec a PC); [congruence|]. done.
Qed.
Lemma replace_cons l v c s : (c = PC -> forall b r, s = b :: r -> b <> l) -> replace l v (c :: s) = c :: replace l v s.
Proof.
  intros H. cbn [replace]. destruct s as [|b r]; [done|]. destruct (Ascii.eqb_spec c PC) as [->|]; [|done]. destruct (Ascii.eqb_spec b l) as [->|]; [|done].
  by destruct (H eq_refl _ _ eq_refl).
Qed.
Lemma replace_hole l v s : replace l v (PC :: l :: s) = v ++ replace l v s.
Proof. cbn [replace]. by rewrite !Ascii.eqb_refl. Qed.

Lemma filled_replace env l v : l <> PC -> env l = None -> plain_values env -> forall s t, no_double_percent env s ->
  filled env s t -> filled (add l v env) s (replace l v t).
Proof.
  intros Hl Hn Hp s t Hd Hf. induction Hf as [|k w s t Hk Hf IH|c s t Hh Hf IH].
  - constructor.
  - rewrite replace_plain by (by eapply Hp). constructor.
    + unfold add. destruct (Ascii.eqb_spec k l) as [->|]; [congruence|done].
    + apply IH. intros a b m ->. by apply (Hd (PC :: k :: a) b m).
  - assert (Hd' : no_double_percent env s). { intros a b m ->. by apply (Hd (c :: a) b m). }
    specialize (IH Hd'). destruct (Ascii.eqb_spec c PC) as [->|Hc].
    2:{ rewrite replace_cons by done. constructor; [|done]. intros (k & s' & w & [= -> _] & _). done. }
    destruct s as [|d s]; inversion Hf as [|k w s0 t0 Hk Hf0|c0 s0 t0 Hh0 Hf0]; subst.
    + constructor; [|constructor]. by intros (k & s' & w & [=] & _).
    + rewrite (Hd [] s0 k eq_refl) in Hk. done.
    + destruct (Ascii.eqb_spec d l) as [->|Hdl].
      * rewrite replace_hole. constructor; [unfold add; by rewrite Ascii.eqb_refl|].
        rewrite replace_cons in IH by done. inversion IH; subst; [congruence|done].
      * rewrite replace_cons by (by intros _ b r [= <- <-]). constructor; [|done].
        intros (k & s' & w & [= -> ->] & Hk). unfold add in Hk. destruct (Ascii.eqb_spec k l); [done|]. destruct Hh. by exists k, s', w.
Qed.
Lemma replace_itself l s : replace l [PC; l] s = s.
Proof.
  remember (length s) as n eqn:En. revert s En. induction n as [n IH] using (well_founded_induction lt_wf). intros s ->.
  destruct s as [|a s]; [done|]. cbn [replace]. destruct s as [|b s]; [done|].
  destruct (Ascii.eqb_spec a PC) as [->|]; cbn [andb].
  - destruct (Ascii.eqb_spec b l) as [->|].
    + rewrite (IH (length s)); [done|cbn; lia|done].
    + f_equal. apply (IH (length (b :: s))); [cbn; lia|done].
  - f_equal. apply (IH (length (b :: s))); [cbn; lia|done].
Qed.
Lemma filled_unique env s t t' : filled env s t -> filled env s t' -> t = t'.
Proof.
  intros H. revert t'. induction H as [|k w s t Hk Hf IH|c s t Hh Hf IH]; intros t' H'.
  - by inversion H'.
  - inversion H' as [|k' w' s0 t0 Hk' Hf0|c0 s0 t0 Hh0 Hf0]; subst; [f_equal; [congruence|by apply IH]|]. destruct Hh0. by exists k, s, w.
  - inversion H' as [|k' w' s0 t0 Hk' Hf0|c0 s0 t0 Hh0 Hf0]; subst; [|f_equal; by apply IH]. destruct Hh. by exists k', s0, w'.
Qed.
