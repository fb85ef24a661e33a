(** The invariant of runners, server and tracker together. *)
From Verif Require Import FleetSpec JointProofs JointInv JointTrace JointProps.
From Verif Require ServerProofs ServerTrace ServerSpec RemoteModel LocalSpec.
From Coq Require Import Lia.
From stdpp Require Import prelude gmap.
Local Open Scope nat_scope.

(** ** Sums over maps *)
Definition wsum {A} (w : A -> nat) (m : gmap N A) : nat := sum_list (map (fun p => w (snd p)) (map_to_list m)).
Lemma sum_list_perm (l l' : list nat) : l ≡ₚ l' -> sum_list l = sum_list l'.
Proof. induction 1; cbn; lia. Qed.
Lemma wsum_empty {A} (w : A -> nat) : wsum w ∅ = 0.
Proof. unfold wsum. by rewrite map_to_list_empty. Qed.
Lemma wsum_delete {A} (w : A -> nat) m k x : m !! k = Some x -> wsum w m = w x + wsum w (delete k m).
Proof.
  intros H. unfold wsum. rewrite <- (sum_list_perm _ _ (Permutation_map _ (map_to_list_delete m k x H))). done.
Qed.
Lemma wsum_insert {A} (w : A -> nat) m k x : wsum w (<[k := x]> m) = w x + wsum w (delete k m).
Proof.
  rewrite <- insert_delete_insert. unfold wsum.
  rewrite (sum_list_perm _ _ (Permutation_map _ (map_to_list_insert (delete k m) k x (lookup_delete m k)))). done.
Qed.
Lemma wsum_delete_le {A} (w : A -> nat) m k : wsum w (delete k m) <= wsum w m.
Proof. destruct (m !! k) as [x|] eqn:E; [rewrite (wsum_delete w m k x E); lia|]. by rewrite delete_notin. Qed.

(** ** Traces *)
Lemma joint_side_app a b : joint_side (a ++ b) = joint_side a ++ joint_side b.
Proof. apply omap_app. Qed.
Lemma joint_side_map t : joint_side (map FJ t) = t.
Proof. induction t; cbn; [done|]. by f_equal. Qed.
Lemma in_joint_side x t : x ∈ joint_side t <-> FJ x ∈ t.
Proof.
  unfold joint_side. rewrite elem_of_list_omap. split.
  - intros ([] & H & [=]); by subst.
  - intros H. by exists (FJ x).
Qed.
Lemma given_app t t' tx n : given t tx n -> given (t ++ t') tx n.
Proof. intros (e & He & Hg). exists e. split; [apply elem_of_app; by left|done]. Qed.

(** ** Answers *)
Definition rgives (n : nat) (rep : ServerModel.reply) : nat :=
  match rep with
  | ServerModel.RStart _ m => b2n (Nat.eqb n m)
  | ServerModel.REnd (Some (_, m)) => b2n (Nat.eqb n m)
  | _ => 0
  end.
Definition rtx (tx : N) (rep : ServerModel.reply) : nat :=
  match rep with
  | ServerModel.RStart tx' _ => b2n (N.eqb tx tx')
  | ServerModel.REnd (Some (tx', _)) => b2n (N.eqb tx tx')
  | _ => 0
  end.
Definition txgivings (tx : N) (evs : list ServerModel.event) : nat :=
  sum_list (map (fun e => match e with ServerModel.EReply _ rep => rtx tx rep | _ => 0 end) evs).
Lemma txgivings_app tx a b : txgivings tx (a ++ b) = txgivings tx a + txgivings tx b.
Proof. unfold txgivings. rewrite map_app. induction (map _ a); cbn; lia. Qed.
Lemma store_lookup t : forall m h rep, store t m !! h = Some rep -> m !! h = Some rep \/ ServerModel.EReply h rep ∈ http_side t.
Proof.
  induction t as [|x t IH]; intros m h rep H; [by left|]. unfold store in H. cbn [fold_left] in H. apply IH in H.
  destruct x as [o|e]; [done|]. change (http_side (inr e :: t)) with (e :: http_side t). rewrite elem_of_cons.
  destruct e; try (destruct H; auto; fail). destruct H as [H|]; [|auto]. destruct (decide (h0 = h)) as [->|].
  - rewrite lookup_insert in H. injection H as <-. auto.
  - rewrite lookup_insert_ne in H by done. auto.
Qed.
Lemma store_givings n t : forall m, wsum (rgives n) (store t m) <= wsum (rgives n) m + givings n (http_side t).
Proof.
  induction t as [|x t IH]; intros m; [cbn; lia|]. unfold store. cbn [fold_left].
  destruct x as [o|e]; [apply IH|]. change (http_side (inr e :: t)) with (e :: http_side t). unfold givings. cbn [List.filter].
  destruct e; try (cbn; apply IH). specialize (IH (<[h := r]> m)). rewrite wsum_insert in IH. pose proof (wsum_delete_le (rgives n) m h).
  unfold givings, store in IH. destruct r as [|tx m'|[[tx m']|]| |]; cbn in *; repeat case_match; cbn in *; lia.
Qed.
Lemma store_txgivings tx t : forall m, wsum (rtx tx) (store t m) <= wsum (rtx tx) m + txgivings tx (http_side t).
Proof.
  induction t as [|x t IH]; intros m; [cbn; lia|]. unfold store. cbn [fold_left].
  destruct x as [o|e]; [apply IH|]. change (http_side (inr e :: t)) with (e :: http_side t). unfold txgivings. cbn [map sum_list].
  destruct e; try (cbn; apply IH). specialize (IH (<[h := r]> m)). rewrite wsum_insert in IH. pose proof (wsum_delete_le (rtx tx) m h).
  unfold txgivings, store in IH. cbn. lia.
Qed.

(** ** What runners know *)
Definition spawning (n : nat) (x : runner) : nat :=
  match r_state x with RemoteModel.MSpawn _ => b2n (Nat.eqb n (r_task x)) | _ => 0 end.
Definition vb (tx : N) (e : RemoteModel.remote_event) : nat :=
  match e with RemoteModel.VBegun tx' _ => b2n (N.eqb tx tx') | _ => 0 end.
Definition announcing (tx : N) (x : runner) : nat :=
  match r_state x with RemoteModel.MSpawn tx' | RemoteModel.MFeed tx' _ => b2n (N.eqb tx tx') | _ => 0 end +
  match r_out x with Some e => vb tx e | None => 0 end + sum_list (map (vb tx) (r_late x)).
Definition nattempts (n : nat) (t : list fobs) : nat := length (List.filter (attempt n) t).
Lemma nattempts_app n a b : nattempts n (a ++ b) = nattempts n a + nattempts n b.
Proof. unfold nattempts. by rewrite List.filter_app, app_length. Qed.
Lemma nattempts_map n t : nattempts n (map FJ t) = 0.
Proof. unfold nattempts. by induction t. Qed.

Definition began (t : list fobs) (r : N) (n : nat) (pid : N) : Prop := FSpawned r n pid ∈ t \/ (pid = 0%N /\ FNotSpawned r n ∈ t).
Definition state_ok (t : list fobs) (r : N) (n : nat) (m : RemoteModel.remote) : Prop :=
  match m with
  | RemoteModel.MSpawn tx => given t tx n
  | RemoteModel.MBegunNone tx => given t tx n /\ FNotSpawned r n ∈ t
  | RemoteModel.MFeed tx pid | RemoteModel.MBegun tx pid => given t tx n /\ FSpawned r n pid ∈ t
  | RemoteModel.MWait tx pid late => given t tx n /\ FSpawned r n pid ∈ t /\ (late = true -> FDeadline r n ∈ t)
  | _ => True
  end.
Definition out_ok (t : list fobs) (r : N) (e : RemoteModel.remote_event) : Prop :=
  match e with
  | RemoteModel.VBegun tx pid => exists n, given t tx n /\ began t r n pid
  | RemoteModel.VEnd tx (Code k) late sl _ out => exists n, given t tx n /\ forall note, tells_truth t r n (report_of k late sl out note)
  | _ => True
  end.
Definition runner_ok (t : list fobs) (r : N) (x : runner) : Prop :=
  state_ok t r (r_task x) (r_state x) /\ forall e, r_out x = Some e \/ e ∈ r_late x -> out_ok t r e.
Definition req_ok (rcs : N -> rconfig) (t : list fobs) (job : option string) (q : ServerModel.request) : Prop :=
  match q with
  | ServerModel.QBegun tx host pid => exists r n, given t tx n /\ host = rc_host (rcs r) /\ job = Some (rc_job (rcs r)) /\ began t r n pid
  | ServerModel.QEnd tx rep _ => exists r n, given t tx n /\ job = Some (rc_job (rcs r)) /\ tells_truth t r n rep
  | _ => True
  end.
Lemma began_app t t' r n pid : began t r n pid -> began (t ++ t') r n pid.
Proof. unfold began. rewrite !elem_of_app. tauto. Qed.
Lemma noted_app t t' r n a b : noted t r n a b -> noted (t ++ t') r n a b.
Proof. unfold noted. rewrite elem_of_app. tauto. Qed.
Lemma truth_app t t' r n rep : tells_truth t r n rep -> tells_truth (t ++ t') r n rep.
Proof.
  intros [[H ?]|[[pid H] H']]; [left; rewrite elem_of_app; auto|right]. split; [exists pid; apply elem_of_app; by left|].
  destruct H' as [(m & Hm & ? & ? & ? & ?)|(raw & out & s & Hm & ? & ? & ? & ? & ?)]; [left; exists m|right; exists raw, out, s]; rewrite elem_of_app; (split; [by left|]).
  - split; [done|]. split; [done|]. split; [done|by apply noted_app].
  - split; [done|]. split; [done|]. split; [done|]. split; [by apply noted_app|done].
Qed.
Lemma noted_prefix t r n (late : bool) note s : (late = true -> FDeadline r n ∈ t) -> noted t r n (String.append (if late then note else "") s) s.
Proof. intros H. destruct late; [right; split; [by apply H|by exists note]|by left]. Qed.
Lemma state_app t t' r n m : state_ok t r n m -> state_ok (t ++ t') r n m.
Proof. destruct m; cbn; try done; rewrite ?elem_of_app; [apply given_app|..]; intros [? H]; (split; [by apply given_app|]); try (by left); destruct H; split; [by left|intros ?; left; auto]. Qed.
Lemma out_app t t' r e : out_ok t r e -> out_ok (t ++ t') r e.
Proof.
  destruct e as [|tx|tx pid|pid now|tx st late sl next out]; cbn; try done.
  - intros (n & ? & ?). exists n. split; [by apply given_app|by apply began_app].
  - destruct st; try done. intros (n & ? & ?). exists n. split; [by apply given_app|intros note; by apply truth_app].
Qed.
Lemma runner_app t t' r x : runner_ok t r x -> runner_ok (t ++ t') r x.
Proof. intros [H1 H2]. split; [by apply state_app|]. intros e He. by apply out_app, H2. Qed.
Lemma req_app rcs t t' job q : req_ok rcs t job q -> req_ok rcs (t ++ t') job q.
Proof.
  destruct q; cbn; try done.
  - intros (r & n & ? & ? & ? & ?). exists r, n. split; [by apply given_app|]. split; [done|]. split; [done|by apply began_app].
  - intros (r & n & ? & ? & ?). exists r, n. split; [by apply given_app|]. split; [done|by apply truth_app].
Qed.

Section fleet.
Context (secret : string) (cfg : config) (nlocal : nat) (rcs : N -> rconfig).
Local Notation jstep := (jstep secret cfg nlocal).
Local Notation fstep := (fstep secret cfg nlocal rcs).
Local Notation frun := (frun secret cfg nlocal rcs).

Definition fresh_handler (f f' : fleet) (ja : jaction) : Prop :=
  match new_handler ja with Some h => h ∉ f_used f /\ f_used f' = {[h]} ∪ f_used f | None => f_used f' = f_used f end.
(** The steps; [o] is what server and tracker do in it. *)
Inductive kind (f f' : fleet) (t : list fobs) (o : list jaction) : Prop :=
| KStartup r : f_runners f !! r = None -> f_joint f' = f_joint f -> f_replies f' = f_replies f -> f_used f' = f_used f -> t = [] -> o = [] ->
    f_runners f' = <[r := Runner RemoteModel.MStart 0 (Some RemoteModel.VStart) [] None]> (f_runners f) -> kind f f' t o
| KServer ja tj : jstep (f_joint f) ja = Some (f_joint f', tj) -> o = [ja] -> fresh_handler f f' ja -> foreign secret ja = true -> t = map FJ tj ->
    f_replies f' = store tj (f_replies f) -> f_runners f' = f_runners f -> kind f f' t o
| KArrive r x e x' h c q note tj ja : f_runners f !! r = Some x -> request_of (rcs r) e note = Some q ->
    ja = JHttp (ServerModel.LRequest h secret (Some (rc_job (rcs r))) q) c -> o = [ja] -> fresh_handler f f' ja ->
    jstep (f_joint f) ja = Some (f_joint f', tj) -> t = map FJ tj ->
    f_replies f' = store tj (f_replies f) -> f_runners f' = <[r := x']> (f_runners f) ->
    r_state x' = r_state x -> r_task x' = r_task x ->
    (r_out x = Some e /\ r_out x' = None /\ r_late x' = r_late x /\ r_wait x' = Some h) \/
      (r_out x' = r_out x /\ (exists k, r_late x !! k = Some e /\ r_late x' = delete k (r_late x)) /\ r_wait x' = r_wait x) -> kind f f' t o
| KRunner r x m es i x' task : f_runners f !! r = Some x -> RemoteModel.remote_step (rc_config (rcs r)) (r_state x) i = Some (m, es) ->
    f_joint f' = f_joint f -> f_used f' = f_used f -> o = [] -> f_runners f' = <[r := x']> (f_runners f) ->
    r_state x' = m -> r_task x' = match task with Some n => n | None => r_task x end -> r_out x' = request_among es ->
    r_late x' = match r_out x with Some e => e :: r_late x | None => r_late x end -> r_wait x' = None ->
    (own_input i = true /\ task = None /\ t = own_obs r (r_task x) i /\ f_replies f' = f_replies f) \/
    (i = RemoteModel.IFails /\ task = None /\ t = [] /\ f_replies f' = f_replies f) \/
    (exists h rep usr1 now, r_wait x = Some h /\ f_replies f !! h = Some rep /\ input_of rep usr1 now = Some (i, task) /\ t = [] /\ f_replies f' = delete h (f_replies f)) ->
    kind f f' t o.

Lemma fjoint_spec f a f' t : fjoint secret cfg nlocal f a = Some (f', t) -> exists tj, jstep (f_joint f) a = Some (f_joint f', tj) /\ fresh_handler f f' a /\ t = map FJ tj /\
  f_replies f' = store tj (f_replies f) /\ f_runners f' = f_runners f.
Proof.
  unfold fjoint, fresh_handler. destruct (new_handler a) as [h|]; [case_bool_decide; [done|]|].
  all: destruct (jstep (f_joint f) a) as [[j tj]|]; [|done]; intros H'; injection H' as <- <-; by exists tj.
Qed.
Lemma farrive_spec f r e x' h c note f' t : farrive secret cfg nlocal rcs f r e x' h c note = Some (f', t) ->
  exists q tj, request_of (rcs r) e note = Some q /\ fresh_handler f f' (JHttp (ServerModel.LRequest h secret (Some (rc_job (rcs r))) q) c) /\
    jstep (f_joint f) (JHttp (ServerModel.LRequest h secret (Some (rc_job (rcs r))) q) c) = Some (f_joint f', tj) /\ t = map FJ tj /\
    f_replies f' = store tj (f_replies f) /\ f_runners f' = <[r := x']> (f_runners f).
Proof.
  unfold farrive. destruct (request_of _ _ _) as [q|]; [|done]. destruct (fjoint _ _ _ _ _) as [[f1 t1]|] eqn:E; [|done].
  intros H. injection H as <- <-. apply fjoint_spec in E as (tj & ? & ? & ? & ? & <-). by exists q, tj.
Qed.
Lemma fstep_kind_acts f a f' t : fstep f a = Some (f', t) -> exists o, kind f f' t o /\ forall b, JTracker b ∈ o -> a = FServer (JTracker b).
Proof.
  intros H. assert (forall b, JTracker b ∈ @nil jaction -> a = FServer (JTracker b)) as Hnil by (intros b X; by apply elem_of_nil in X).
  assert (forall l c b, JTracker b ∈ [JHttp l c] -> a = FServer (JTracker b)) as Hone by (intros l c b X; by apply elem_of_list_singleton in X).
  destruct a as [r|a|r h c note|r k h c note|r usr1 now|r|r i]; cbn [FleetModel.fstep] in H.
  - destruct (f_runners f !! r) eqn:E; [done|]. injection H as <- <-. exists []. split; [by apply (KStartup _ _ _ _ r)|done].
  - destruct (foreign secret a) eqn:E; [|done]. apply fjoint_spec in H as (tj & ? & ? & ? & ? & ?). exists [a]. split; [by eapply KServer|]. intros b X. by apply elem_of_list_singleton in X as ->.
  - destruct (f_runners f !! r) as [[m n [e|] late w]|] eqn:E; try done. apply farrive_spec in H as (q & tj & ? & ? & ? & ? & ? & ?). eexists. split; [eapply KArrive; try done; by left|apply Hone].
  - destruct (f_runners f !! r) as [[m n o late w]|] eqn:E; [|done]. destruct (late !! k) as [e|] eqn:Ek; [|done].
    apply farrive_spec in H as (q & tj & ? & ? & ? & ? & ? & ?). eexists. split; [eapply KArrive; try done; right; split; [done|]; split; [by exists k|done]|apply Hone].
  - destruct (f_runners f !! r) as [x|] eqn:E; [|done]. destruct (r_wait x) as [h|] eqn:Ew; [|done]. destruct (f_replies f !! h) as [rep|] eqn:Er; [|done].
    destruct (input_of rep usr1 now) as [[i task]|] eqn:Ei; [|done]. unfold frunner in H. destruct (RemoteModel.remote_step _ _ _) as [[m es]|] eqn:Es; [|done].
    injection H as <- <-. exists []. split; [|done]. eapply KRunner; try done. right. right. by exists h, rep, usr1, now.
  - destruct (f_runners f !! r) as [x|] eqn:E; [|done]. unfold frunner in H. destruct (RemoteModel.remote_step _ _ _) as [[m es]|] eqn:Es; [|done].
    injection H as <- <-. exists []. split; [|done]. eapply (KRunner _ _ _ _ r x m es _ _ None); try done. right. by left.
  - destruct (f_runners f !! r) as [x|] eqn:E; [|done]. destruct (own_input i) eqn:Eo; [|done]. unfold frunner in H. destruct (RemoteModel.remote_step _ _ _) as [[m es]|] eqn:Es; [|done].
    injection H as <- <-. exists []. split; [|done]. eapply (KRunner _ _ _ _ r x m es _ _ None); try done. by left.
Qed.
Lemma fstep_kind f a f' t : fstep f a = Some (f', t) -> exists o, kind f f' t o.
Proof. intros H. destruct (fstep_kind_acts _ _ _ _ H) as (o & ? & _). by exists o. Qed.

Record FInv (jacts : list jaction) (f : fleet) (t : list fobs) : Prop := {
  fi_run : jreachable secret cfg nlocal jacts (f_joint f) (joint_side t);
  fi_reply : forall h rep, f_replies f !! h = Some rep -> ServerModel.EReply h rep ∈ http_side (joint_side t);
  fi_runner : forall r x, f_runners f !! r = Some x -> runner_ok t r x;
  fi_acts : forall h job q c, JHttp (ServerModel.LRequest h secret job q) c ∈ jacts -> req_ok rcs t job q;
  fi_count : forall n, wsum (rgives n) (f_replies f) + wsum (spawning n) (f_runners f) + nattempts n t <= givings n (http_side (joint_side t));
  fi_tx : forall tx, wsum (rtx tx) (f_replies f) + wsum (announcing tx) (f_runners f) + length (List.filter (announces secret tx) jacts) <= txgivings tx (http_side (joint_side t));
  fi_before : forall t1 r n pid t2, t = t1 ++ FSpawned r n pid :: t2 -> exists tx, given t1 tx n
}.
Lemma finv_new : FInv [] (fleet_new cfg) [].
Proof.
  split.
  - done.
  - intros h rep H. cbn in H. by rewrite lookup_empty in H.
  - intros r x H. cbn in H. by rewrite lookup_empty in H.
  - intros h job q c H. by apply elem_of_nil in H.
  - intros n. cbn [fleet_new f_replies f_runners]. rewrite !wsum_empty. done.
  - intros tx. cbn [fleet_new f_replies f_runners]. rewrite !wsum_empty. done.
  - intros t1 r n pid t2 H. by destruct t1.
Qed.

(** Server and tracker make a step. *)
Lemma before_map t (tj : list (obs + ServerModel.event)) t1 r n pid t2 : t ++ map FJ tj = t1 ++ FSpawned r n pid :: t2 ->
  exists t3, t = t1 ++ FSpawned r n pid :: t3.
Proof.
  intros H. destruct (app_eq_inv _ _ _ _ H) as [(k & -> & E)|(k & -> & E)].
  - destruct k as [|o k].
    + exfalso. destruct tj; done.
    + cbn in E. injection E as <- E. by eexists.
  - exfalso. assert (FSpawned r n pid ∈ map FJ tj) as Hin. { rewrite E. apply elem_of_app. right. by left. }
    by apply elem_of_list_fmap in Hin as (? & ? & _).
Qed.
Lemma finv_joint jacts f t ja j tj R : FInv jacts f t -> jstep (f_joint f) ja = Some (j, tj) ->
  (forall r x, R !! r = Some x -> runner_ok t r x) ->
  (forall h job q c, ja = JHttp (ServerModel.LRequest h secret job q) c -> req_ok rcs t job q) ->
  (forall n, wsum (spawning n) R <= wsum (spawning n) (f_runners f)) ->
  (forall tx, wsum (announcing tx) R + b2n (announces secret tx ja) <= wsum (announcing tx) (f_runners f)) ->
  forall used, FInv (jacts ++ [ja]) (Fleet j R (store tj (f_replies f)) used) (t ++ map FJ tj).
Proof.
  intros [Hrun Hrep Hr Ha Hc Htx Hb] Hj HR Hq Hs Hv used. split; cbn [f_joint f_runners f_replies].
  - unfold jreachable in *. rewrite joint_side_app, joint_side_map. apply jrun_app. eexists _, _, _. split; [done|]. split; [by apply jrun_one|done].
  - intros h rep H. rewrite joint_side_app, joint_side_map, http_side_app. apply elem_of_app. apply store_lookup in H as [H|H]; [left; by apply Hrep|by right].
  - intros r x H. by apply runner_app, HR.
  - intros h job q c [H|H]%elem_of_app; [by eapply req_app, Ha|]. apply elem_of_list_singleton in H. by eapply req_app, Hq.
  - intros n. rewrite nattempts_app, nattempts_map, joint_side_app, joint_side_map, http_side_app, givings_app.
    pose proof (store_givings n tj (f_replies f)). specialize (Hc n). specialize (Hs n). lia.
  - intros tx. rewrite joint_side_app, joint_side_map, http_side_app, txgivings_app, List.filter_app, app_length. cbn [List.filter].
    pose proof (store_txgivings tx tj (f_replies f)). specialize (Htx tx). specialize (Hv tx). destruct (announces secret tx ja); cbn in *; lia.
  - intros t1 r n pid t2 H. apply before_map in H as [t3 H]. by eapply Hb.
Qed.

(** A runner makes a step. *)
Lemma late_weight tx x : sum_list (map (vb tx) (match r_out x with Some e => e :: r_late x | None => r_late x end)) =
  match r_out x with Some e => vb tx e | None => 0 end + sum_list (map (vb tx) (r_late x)).
Proof. by destruct (r_out x). Qed.
Lemma late_ok t r x e : runner_ok t r x -> e ∈ (match r_out x with Some e => e :: r_late x | None => r_late x end) -> out_ok t r e.
Proof. intros [_ H] He. apply H. destruct (r_out x); [apply elem_of_cons in He as [->|]|]; auto. Qed.
Lemma runner_own t r x x' i m es : runner_ok t r x -> RemoteModel.remote_step (rc_config (rcs r)) (r_state x) i = Some (m, es) ->
  own_input i = true \/ i = RemoteModel.IFails \/ i = RemoteModel.INoTask \/ (exists usr1 now, i = RemoteModel.IOk usr1 now) ->
  r_state x' = m -> r_task x' = r_task x -> r_out x' = request_among es ->
  r_late x' = match r_out x with Some e => e :: r_late x | None => r_late x end ->
  runner_ok (t ++ own_obs r (r_task x) i) r x' /\ (forall n, spawning n x' + nattempts n (own_obs r (r_task x) i) <= spawning n x) /\
  (forall tx, announcing tx x' <= announcing tx x) /\ joint_side (own_obs r (r_task x) i) = [] /\
  (forall n pid, FSpawned r n pid ∈ own_obs r (r_task x) i -> exists tx, given t tx n).
Proof.
  intros Hok Hs Hi Es Et Eo El. pose proof Hok as [Hst Ho].
  assert (forall e, request_among es = Some e -> out_ok (t ++ own_obs r (r_task x) i) r e) as Hreq.
  { clear -Hs Hst. intros e He. destruct (r_state x) as [|tx|tx|tx pid|tx pid|tx pid late| |tx| |], i; cbn in Hs; try done;
      repeat (case_match; try done); simplify_eq; cbn in He; try done; injection He as <-; cbn [state_ok] in Hst; cbn [own_obs out_ok].
    - exists (r_task x). split; [by apply given_app|]. right. split; [done|]. apply elem_of_app. right. by left.
    - exists (r_task x). split; [by apply given_app|]. left. apply elem_of_app. right. by left.
    - destruct Hst as [H1 H2]. exists (r_task x). split; [by apply given_app|]. intros note. left. split; [apply elem_of_app; by left|done].
    - destruct Hst as [H1 H2]. exists (r_task x). split; [by apply given_app|]. left. apply elem_of_app. by left.
    - destruct Hst as (H1 & H2 & H3). exists (r_task x). split; [by apply given_app|]. intros note. right. split; [exists pid; apply elem_of_app; by left|].
      right. eexists _, _, _. split; [apply elem_of_app; right; by left|]. split; [done|]. split; [done|]. split; [done|]. split; [|done].
      apply noted_prefix. intros ->. apply elem_of_app. left. by apply H3.
    - destruct Hst as (H1 & H2 & H3). exists (r_task x). split; [by apply given_app|]. intros note. right. split; [exists pid; apply elem_of_app; by left|].
      left. eexists. split; [apply elem_of_app; right; by left|]. split; [done|]. split; [done|]. split; [done|]. apply noted_prefix. intros ->. apply elem_of_app. left. by apply H3. }
  split; [split|split; [|split; [|split]]].
  - rewrite Es, Et. clear -Hs Hst Hi. destruct (r_state x) as [|tx|tx|tx pid|tx pid|tx pid late| |tx| |], i; cbn in Hs; try done;
      repeat (case_match; try done); simplify_eq; cbn [state_ok] in *; try done; cbn [own_obs]; rewrite ?app_nil_r; try done.
    all: try (exfalso; destruct Hi as [?|[?|[?|(? & ? & ?)]]]; done).
    all: try (split; [by apply given_app|apply elem_of_app; right; by left]).
    + destruct Hst as [H1 H2]. split; [done|]. by split.
    + destruct Hst as (H1 & H2 & H3). split; [by apply given_app|]. split; [apply elem_of_app; by left|]. intros _. apply elem_of_app. right. by left.
  - intros e [He|He]; [rewrite Eo in He; by apply Hreq|]. rewrite El in He. apply out_app. by eapply late_ok.
  - intros n. unfold spawning. rewrite Es, Et. clear -Hs Hi. destruct (r_state x) as [|tx|tx|tx pid|tx pid|tx pid late| |tx| |], i; cbn in Hs; try done;
      repeat (case_match; try done); simplify_eq; unfold nattempts; cbn; try lia.
    all: try (exfalso; destruct Hi as [?|[?|[?|(? & ? & ?)]]]; done).
    all: destruct (Nat.eqb n (r_task x)); cbn; lia.
  - intros tx0. unfold announcing. rewrite Es, El, Eo, late_weight. generalize (match r_out x with Some e => vb tx0 e | None => 0 end) (sum_list (map (vb tx0) (r_late x))). intros a b. clear -Hs Hi. destruct (r_state x) as [|tx|tx|tx pid|tx pid|tx pid late| |tx| |], i; cbn in Hs; try done;
      repeat (match type of Hs with context [match ?c with _ => _ end] => destruct c end; try done); simplify_eq; cbn; try lia.
    all: exfalso; destruct Hi as [?|[?|[?|(? & ? & ?)]]]; done.
  - by destruct i.
  - intros n pid Hin. destruct i; cbn in Hin; try (by apply elem_of_nil in Hin); apply elem_of_list_singleton in Hin; try done. injection Hin as -> ->.
    destruct (r_state x); try done. eexists. exact Hst.
Qed.
Lemma runner_given t r x x' tx n m es : runner_ok t r x -> given t tx n -> RemoteModel.remote_step (rc_config (rcs r)) (r_state x) (RemoteModel.IGiven tx) = Some (m, es) ->
  r_state x' = m -> r_task x' = n -> r_out x' = request_among es ->
  r_late x' = match r_out x with Some e => e :: r_late x | None => r_late x end ->
  runner_ok t r x' /\ (forall n', spawning n' x' <= spawning n' x + b2n (Nat.eqb n' n)) /\ (forall tx', announcing tx' x' <= announcing tx' x + b2n (N.eqb tx' tx)).
Proof.
  intros Hok Hg Hs Es Et Eo El.
  assert (m = RemoteModel.MSpawn tx /\ request_among es = None /\ match r_state x with RemoteModel.MStart | RemoteModel.MEnd _ => True | _ => False end) as (-> & He & Hst).
  { clear -Hs. destruct (r_state x) as [|tx'|tx'|tx' pid|tx' pid|tx' pid late| |tx'| |]; cbn in Hs; try done; by simplify_eq. }
  split; [split|split].
  - by rewrite Es, Et.
  - intros e [H|H]; [by rewrite Eo, He in H|]. rewrite El in H. by eapply late_ok.
  - intros n'. unfold spawning at 1. rewrite Es, Et. lia.
  - intros tx'. unfold announcing. rewrite Es, El, Eo, late_weight, He. destruct (r_state x); try done; lia.
Qed.
Lemma input_given rep usr1 now i task : input_of rep usr1 now = Some (i, task) ->
  (exists tx n, i = RemoteModel.IGiven tx /\ task = Some n /\ (rep = ServerModel.RStart tx n \/ rep = ServerModel.REnd (Some (tx, n)))) \/
  (task = None /\ (i = RemoteModel.IFails \/ i = RemoteModel.INoTask \/ exists usr1 now, i = RemoteModel.IOk usr1 now)).
Proof. destruct rep as [|tx n|[[tx n]|]| |]; cbn; intros H; simplify_eq; eauto 10. Qed.

Lemma finv_runner jacts f t r x x' R os : FInv jacts f t -> f_runners f !! r = Some x -> runner_ok (t ++ os) r x' -> joint_side os = [] ->
  (forall h rep, R !! h = Some rep -> f_replies f !! h = Some rep) ->
  (forall n, wsum (rgives n) R + spawning n x' + nattempts n os <= wsum (rgives n) (f_replies f) + spawning n x) ->
  (forall tx, wsum (rtx tx) R + announcing tx x' <= wsum (rtx tx) (f_replies f) + announcing tx x) ->
  os = [] \/ (exists o, os = [o] /\ forall n pid, FSpawned r n pid = o -> exists tx, given t tx n) /\ (forall r' n pid, FSpawned r' n pid ∈ os -> r' = r) ->
  forall used, FInv jacts (Fleet (f_joint f) (<[r := x']> (f_runners f)) R used) (t ++ os).
Proof.
  intros [Hrun Hrep Hr Ha Hc Htx Hb] Hx Hok Hos HR Hs Hv Hsp used.
  assert (joint_side (t ++ os) = joint_side t) as Ej by (by rewrite joint_side_app, Hos, app_nil_r).
  split; cbn [f_joint f_runners f_replies]; rewrite ?Ej.
  - done.
  - intros h rep H. by apply Hrep, HR.
  - intros r' y H. destruct (decide (r' = r)) as [->|]; [rewrite lookup_insert in H; by injection H as <-|].
    rewrite lookup_insert_ne in H by done. by apply runner_app, Hr.
  - intros h job q c H. by eapply req_app, Ha.
  - intros n. specialize (Hc n). specialize (Hs n). rewrite wsum_insert, nattempts_app. rewrite (wsum_delete _ _ _ _ Hx) in Hc. lia.
  - intros tx. specialize (Htx tx). specialize (Hv tx). rewrite wsum_insert. rewrite (wsum_delete _ _ _ _ Hx) in Htx. lia.
  - intros t1 r' n pid t2 H. destruct Hsp as [->|[(o & -> & Hsp) Hr']]; [rewrite app_nil_r in H; by eapply Hb|].
    destruct (app_eq_inv _ _ _ _ H) as [(k & -> & E)|(k & -> & E)].
    + destruct k as [|o' k]; cbn in E.
      * injection E as E0 E1; subst. rewrite ?app_nil_r in *. assert (r' = r) as -> by (apply (Hr' r' n pid); by left). by apply (Hsp n pid).
      * injection E as <- E. by eapply Hb.
    + destruct k as [|o' k]; cbn in E; [|by destruct k]. injection E as E0 E1; subst. rewrite ?app_nil_r in *. assert (r' = r) as -> by (apply (Hr' r' n pid); by left). by apply (Hsp n pid).
Qed.

Lemma finv_step jacts f t f' t' o : FInv jacts f t -> kind f f' t' o -> FInv (jacts ++ o) f' (t ++ t').
Proof.
  intros HI H. pose proof HI as [Hrun Hrep Hr Ha Hc Htx Hb]. destruct f' as [j' R' rep' used']. destruct H as
    [r Hx Ej Er Eu -> -> ER|ja tj Hj -> Hfr Hf -> Er ER|r x e x' h c q note tj ja Hx Hq -> -> Hfr Hj -> Er ER E1 E2 E3|r x m es i x' task Hx Hs Ej Eu -> ER Es Et Eo El Ew Hk]; cbn [f_joint f_runners f_replies] in *; subst.
  - rewrite !app_nil_r. split; cbn [f_joint f_runners f_replies]; try done.
    + intros r' y H. destruct (decide (r' = r)) as [->|]; [rewrite lookup_insert in H; injection H as <-; split; [done|]|rewrite lookup_insert_ne in H by done; by apply Hr].
      intros e [H|H]; cbn in H; [by injection H as <-|by apply elem_of_nil in H].
    + intros n. specialize (Hc n). rewrite wsum_insert, delete_notin by done. cbn. lia.
    + intros tx. specialize (Htx tx). rewrite wsum_insert, delete_notin by done. cbn. lia.
  - apply finv_joint; try done.
    + intros h job q c ->. cbn in Hf. rewrite String.eqb_refl in Hf. by destruct q.
    + intros tx. replace (announces secret tx ja) with false; [cbn; lia|]. destruct ja as [| |l c| |]; try done. destruct l as [h token [j|] q| | | | | | | | | | | |]; try done.
      destruct q; try done. cbn in *. rewrite orb_false_r in Hf. apply negb_true_iff in Hf. by rewrite Hf.
  - pose proof (Hr _ _ Hx) as [Hst Hout].
    assert (out_ok t r e) as He. { apply Hout. destruct E3 as [(E3 & _)|(_ & (k & E3 & _) & _)]; [by left|right]. by eapply elem_of_list_lookup_2. }
    apply (finv_joint jacts f t _ _ _ _ HI Hj).
    + intros r' y H. destruct (decide (r' = r)) as [->|]; [rewrite lookup_insert in H; injection H as <-|rewrite lookup_insert_ne in H by done; by apply Hr].
      split; [by rewrite E1, E2|]. intros e' He'. apply Hout. destruct E3 as [(E3 & E4 & E5 & _)|(E4 & (k & E3 & E5) & _)].
      * rewrite E4, E5 in He'. destruct He' as [|]; [done|by right].
      * rewrite E4, E5 in He'. destruct He' as [|He']; [by left|right]. rewrite (delete_Permutation _ _ _ E3). by right.
    + intros h' job q' c' [= <- <- <- <-]. destruct e as [|tx|tx pid|pid now|tx st late sl next out]; cbn in Hq; try done; try (injection Hq as <-); cbn; try done.
      * destruct He as (n & Hg & Hbe). by exists r, n.
      * destruct st; try done. injection Hq as <-. destruct He as (n & Hg & Hca). by exists r, n.
    + intros n. rewrite wsum_insert, (wsum_delete _ _ _ _ Hx). unfold spawning at 1 3. rewrite E1, E2. lia.
    + intros tx. rewrite wsum_insert, (wsum_delete _ _ _ _ Hx).
      enough (announcing tx x' + b2n (announces secret tx (JHttp (ServerModel.LRequest h secret (Some (rc_job (rcs r))) q) c)) <= announcing tx x) by lia.
      assert (b2n (announces secret tx (JHttp (ServerModel.LRequest h secret (Some (rc_job (rcs r))) q) c)) = vb tx e) as ->.
      { destruct e as [|tx'|tx' pid|pid now|tx' st late sl next out]; cbn in Hq; try done; try (injection Hq as <-); cbn [announces vb]; try done.
        - by rewrite String.eqb_refl.
        - destruct st; try done. by injection Hq as <-. }
      unfold announcing. rewrite E1. destruct E3 as [(E3 & E4 & E5 & _)|(E4 & (k & E3 & E5) & _)].
      * rewrite E3, E4, E5. lia.
      * rewrite E4, E5. assert (sum_list (map (vb tx) (r_late x)) = vb tx e + sum_list (map (vb tx) (delete k (r_late x)))) as ->; [|lia].
        rewrite (sum_list_perm _ _ (Permutation_map (vb tx) (delete_Permutation _ _ _ E3))). done.
  - rewrite app_nil_r. pose proof (Hr _ _ Hx) as Hok.
    assert (forall r' n pid, FSpawned r' n pid ∈ own_obs r (r_task x) i -> r' = r) as Hrr.
    { intros r' n pid Hin. destruct i; cbn in Hin; try (by apply elem_of_nil in Hin); apply elem_of_list_singleton in Hin; by simplify_eq. }
    assert (own_obs r (r_task x) i = [] \/ exists o, own_obs r (r_task x) i = [o]) as Hone by (destruct i; cbn; eauto).
    destruct Hk as [(Hi & -> & -> & ->)|[(Hi & -> & -> & ->)|(h & rep & usr1 & now & _ & Hl & Hin & -> & ->)]].
    + destruct (runner_own t r x x' i _ _ Hok Hs (or_introl Hi) eq_refl Et Eo El) as (H1 & H2 & H3 & H4 & H5). apply (finv_runner _ f t r x); try done.
      * intros n. specialize (H2 n). lia.
      * intros tx. specialize (H3 tx). lia.
      * destruct Hone as [->|[o Ho]]; [by left|right]. split; [|done]. exists o. split; [done|]. intros n pid <-. apply (H5 n pid). rewrite Ho. by left.
    + destruct (runner_own t r x x' i _ _ Hok Hs (or_intror (or_introl Hi)) eq_refl Et Eo El) as (H1 & H2 & H3 & H4 & H5). subst i. apply (finv_runner _ f t r x); try done.
      * intros n. specialize (H2 n). cbn in *. lia.
      * intros tx. specialize (H3 tx). lia.
      * by left.
    + assert (forall h' rep', delete h (f_replies f) !! h' = Some rep' -> f_replies f !! h' = Some rep') as Hdel by (intros h' rep' H; by apply lookup_delete_Some in H as [_ H]).
      destruct (input_given _ _ _ _ _ Hin) as [(tx & n & -> & -> & Hrp)|[-> Hi]].
      * assert (given t tx n) as Hg. { apply Hrep in Hl. exists (ServerModel.EReply h rep). split; [by apply in_joint_side, in_http_side|]. exists h. destruct Hrp as [-> | ->]; auto. }
        destruct (runner_given t r x x' tx n _ _ Hok Hg Hs eq_refl Et Eo El) as (H1 & H2 & H3). apply (finv_runner _ f t r x); try done.
        -- by rewrite app_nil_r.
        -- intros n'. specialize (H2 n'). rewrite (wsum_delete _ _ _ _ Hl). destruct Hrp as [-> | ->]; cbn [rgives]; unfold nattempts; cbn [List.filter length]; lia.
        -- intros tx'. specialize (H3 tx'). rewrite (wsum_delete _ _ _ _ Hl). destruct Hrp as [-> | ->]; cbn [rtx]; lia.
        -- by left.
      * destruct (runner_own t r x x' i _ _ Hok Hs (or_intror Hi) eq_refl Et Eo El) as (H1 & H2 & H3 & H4 & H5).
        assert (own_obs r (r_task x) i = []) as Eos by (destruct Hi as [->|[->|(? & ? & ->)]]; done). rewrite Eos in *. apply (finv_runner _ f t r x); try done.
        -- intros n'. specialize (H2 n'). pose proof (wsum_delete_le (rgives n') (f_replies f) h). lia.
        -- intros tx'. specialize (H3 tx'). pose proof (wsum_delete_le (rtx tx') (f_replies f) h). lia.
        -- by left.
Qed.

Lemma frun_app a : forall b f f' t, frun f (a ++ b) = Some (f', t) <-> exists f1 t1 t2, frun f a = Some (f1, t1) /\ frun f1 b = Some (f', t2) /\ t = t1 ++ t2.
Proof.
  induction a as [|x a IH]; intros b f f' t; cbn [app FleetModel.frun].
  { split; [intros H; by exists f, [], t|]. intros (t1 & o1 & o2 & [= <- <-] & H & ->). done. }
  destruct (fstep f x) as [[f1 t1]|]; [|split; [done|]; by intros (? & ? & ? & ? & _)].
  split.
  - destruct (frun f1 (a ++ b)) as [[f2 t2]|] eqn:E; [|done]. intros [= <- <-].
    apply IH in E as (s3 & t3 & t4 & E1 & E2 & ->). rewrite E1. eexists _, _, _. split; [reflexivity|]. split; [done|]. by rewrite List.app_assoc.
  - intros (s2 & t2 & t3 & H1 & H2 & ->). destruct (frun f1 a) as [[s3 t4]|] eqn:E; [|done]. injection H1 as <- <-.
    assert (frun f1 (a ++ b) = Some (f', t4 ++ t3)) as -> by (apply IH; eauto 10). by rewrite List.app_assoc.
Qed.
Lemma finv_run_acts acts f t : freachable secret cfg nlocal rcs acts f t -> exists jacts, FInv jacts f t /\ forall b, JTracker b ∈ jacts -> FServer (JTracker b) ∈ acts.
Proof.
  unfold freachable. revert f t. induction acts as [|a acts IH] using rev_ind; intros f t H.
  { injection H as <- <-. exists []. split; [apply finv_new|]. intros b X. by apply elem_of_nil in X. }
  apply frun_app in H as (f1 & t1 & t2 & H1 & H2 & ->). destruct (IH _ _ H1) as (jacts & HI & Hacts). cbn [FleetModel.frun] in H2.
  destruct (fstep f1 a) as [[f2 t3]|] eqn:E; [|done]. injection H2 as <- <-. rewrite app_nil_r. apply fstep_kind_acts in E as (o & Hk & Ho). exists (jacts ++ o).
  split; [by apply (finv_step _ f1)|]. intros b [X|X]%elem_of_app; apply elem_of_app; [left; by apply Hacts|right]. rewrite <- (Ho b X). by left.
Qed.
Lemma finv_run acts f t : freachable secret cfg nlocal rcs acts f t -> exists jacts, FInv jacts f t.
Proof. intros H. destruct (finv_run_acts _ _ _ H) as (jacts & HI & _). by exists jacts. Qed.

(** What a runner does is seen in a step of its own. *)
Lemma fstep_alone f a f' t r n pid : fstep f a = Some (f', t) -> FSpawned r n pid ∈ t -> t = [FSpawned r n pid].
Proof.
  intros H Hin. apply fstep_kind in H as [o H]. destruct H as
    [? ? ? ? ? -> ? ?|ja tj ? ? ? ? -> ? ?|? ? ? ? ? ? ? ? tj ? ? ? ? ? ? ? -> ? ? ? ? ?|? ? ? ? i ? ? ? ? ? ? ? ? ? ? ? ? ? [(? & ? & -> & ?)|[(? & ? & -> & ?)|(? & ? & ? & ? & ? & ? & ? & -> & ?)]]].
  - by apply elem_of_nil in Hin.
  - by apply elem_of_list_fmap in Hin as (? & ? & _).
  - by apply elem_of_list_fmap in Hin as (? & ? & _).
  - destruct i; cbn in Hin |- *; try (by apply elem_of_nil in Hin); apply elem_of_list_singleton in Hin; congruence.
  - by apply elem_of_nil in Hin.
  - by apply elem_of_nil in Hin.
Qed.
Lemma frun_before acts : forall f f' t1 r n pid t2, frun f acts = Some (f', t1 ++ FSpawned r n pid :: t2) -> exists a f1, frun f a = Some (f1, t1).
Proof.
  induction acts as [|x acts IH]; intros f f' t1 r n pid t2 H; cbn [FleetModel.frun] in H.
  { injection H as _ H. by destruct t1. }
  destruct (fstep f x) as [[f2 t3]|] eqn:E; [|done]. destruct (frun f2 acts) as [[f3 t4]|] eqn:E2; [|done]. injection H as _ H.
  destruct (app_eq_inv _ _ _ _ H) as [(k & Ek & E3)|(k & Ek & E3)].
  - destruct k as [|o k]; cbn in E3.
    + exists [x], f2. cbn [FleetModel.frun]. by rewrite E, Ek, !app_nil_r.
    + injection E3 as <- E3. assert (t3 = [FSpawned r n pid]) as E4. { eapply fstep_alone; [exact E|]. rewrite Ek. apply elem_of_app. right. by left. }
      rewrite E4 in Ek. destruct t1 as [|o t1]; [by exists [], f|]. cbn in Ek. injection Ek as _ Ek. by destruct t1.
  - rewrite E3 in E2. destruct (IH _ _ _ _ _ _ _ E2) as (a & f1 & Ha). exists (x :: a), f1. cbn [FleetModel.frun]. by rewrite E, Ha, Ek.
Qed.
End fleet.
