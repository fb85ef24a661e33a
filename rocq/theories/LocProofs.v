(** Proofs about storage locations. *)
From Coq Require Import DecimalString DecimalN.
From Verif Require Export LocSpec SessionMore.
From stdpp Require Import prelude.
Open Scope string_scope.
Local Arguments String.append : simpl nomatch.

(** ** Texts *)
Lemma sapp_assoc (a b c : string) : (a +:+ b) +:+ c = a +:+ b +:+ c.
Proof. induction a as [|x a IH]; simpl; [done|]. by rewrite IH. Qed.
Lemma sapp_nil (a : string) : a +:+ "" = a.
Proof. induction a as [|x a IH]; simpl; [done|]. by rewrite IH. Qed.
Lemma sapp_inv_l (a b c : string) : a +:+ b = a +:+ c -> b = c.
Proof. induction a as [|x a IH]; simpl; [done|]. intros [= H]. by apply IH. Qed.
Lemma slength_app (a b : string) : String.length (a +:+ b) = String.length a + String.length b.
Proof. induction a as [|x a IH]; simpl; [done|]. by rewrite IH. Qed.
Lemma sapp_inv_r (a b c : string) : a +:+ c = b +:+ c -> a = b.
Proof.
  revert b. induction a as [|x a IH]; intros [|y b]; simpl; intros H; try done.
  - apply (f_equal String.length) in H. simpl in H. rewrite slength_app in H. lia.
  - apply (f_equal String.length) in H. simpl in H. rewrite slength_app in H. lia.
  - injection H as -> H. f_equal. by apply IH.
Qed.

(** The last occurrence of [c] splits a text in one way. *)
Lemma split_last c a b x y :
  a +:+ String c x = b +:+ String c y -> ~ has_char c x -> ~ has_char c y -> a = b /\ x = y.
Proof.
  revert b. induction a as [|u a IH]; intros [|v b]; simpl; intros H Hx Hy.
  - by injection H as ->.
  - injection H as -> H. destruct Hx. exists b, y. done.
  - injection H as -> H. destruct Hy. exists a, x. done.
  - injection H as -> H. destruct (IH _ H Hx Hy) as [-> ->]. done.
Qed.

Lemma is_absolute_iff p : is_absolute p = true <-> begins_with "/" p.
Proof.
  split.
  - destruct p as [|c p]; simpl; [done|]. destruct c as [[] [] [] [] [] [] [] []]; try done. intros _. by exists p.
  - intros [b ->]. done.
Qed.

Lemma ends_in_slash_iff p : ends_in_slash p = true <-> exists b, p = b +:+ "/".
Proof.
  induction p as [|c p IH]; simpl.
  - split; [done|]. intros [[|x b] H]; done.
  - destruct p as [|d p].
    + rewrite Ascii.eqb_eq. split; [intros ->; by exists ""|]. intros [[|x [|y b]] H]; simpl in H; by simplify_eq.
    + rewrite IH. split.
      * intros [b ->]. exists (String c b). done.
      * intros [[|x b] H]; [done|]. simpl in H. injection H as -> H. exists b. done.
Qed.

Lemma path_join_iff base p f : path_join base p = f <-> seen_from base p f.
Proof.
  assert (seen_from base p (path_join base p)) as Hs.
  { unfold path_join, seen_from. destruct (is_absolute p) eqn:Ea; [left; split; [by apply is_absolute_iff|done]|right].
    assert (~ begins_with "/" p) as Hn by (rewrite <- is_absolute_iff; congruence).
    destruct (String.eqb_spec base "") as [->|Hb]; simpl; [left; auto|].
    destruct (ends_in_slash base) eqn:Ee; [left|right]; (split; [done|]).
    - split; [|done]. right. by apply ends_in_slash_iff.
    - split; [done|]. split; [|done]. intros b Hbb. assert (ends_in_slash base = true); [|congruence]. apply ends_in_slash_iff. by exists b. }
  split; [intros <-; done|]. intros Hf.
  destruct Hs as [[A1 A2]|[(A1 & A2 & A3)|(A1 & A2 & A3 & A4)]], Hf as [[B1 B2]|[(B1 & B2 & B3)|(B1 & B2 & B3 & B4)]]; try congruence; exfalso.
  - destruct A2 as [?|[b ?]]; [done|]. by apply (B3 b).
  - destruct B2 as [?|[b ?]]; [done|]. by apply (A3 b).
Qed.

Lemma path_join_rel base p : is_absolute p = false -> base <> "" ->
  path_join base p = (if ends_in_slash base then base else base +:+ "/") +:+ p.
Proof.
  intros Hp Hb. unfold path_join. rewrite Hp. destruct (String.eqb_spec base ""); [done|]. simpl. destruct (ends_in_slash base); [done|]. by rewrite sapp_assoc.
Qed.

Lemma path_join_base a b p : is_absolute p = false -> a <> "" -> b <> "" ->
  path_join a p = path_join b p <-> same_place a b.
Proof.
  intros Hp Ha Hb. rewrite !path_join_rel by done. unfold same_place, no_slash_at_end.
  assert (forall x, ends_in_slash x = false -> forall b, x <> b +:+ "/") as Hno.
  { intros x Hx y Hy. assert (ends_in_slash x = true); [|congruence]. apply ends_in_slash_iff. by exists y. }
  split.
  - intros H. apply sapp_inv_r in H. destruct (ends_in_slash a) eqn:Ea, (ends_in_slash b) eqn:Eb; [by left|right; left|right; right|left].
    + split; [by apply Hno|done].
    + split; [by apply Hno|done].
    + by apply sapp_inv_r in H.
  - assert (forall x, ends_in_slash (x +:+ "/") = true) as Hyes by (intros x; apply ends_in_slash_iff; by exists x).
    assert (forall x, (forall b, x <> b +:+ "/") -> ends_in_slash x = false) as Hn2.
    { intros x Hx. destruct (ends_in_slash x) eqn:E; [|done]. apply ends_in_slash_iff in E as [y Hy]. by apply Hx in Hy. }
    intros [->|[[H ->]|[H ->]]]; [done| |]; by rewrite Hyes, (Hn2 _ H).
Qed.

Lemma path_join_absolute base p : is_absolute base = true -> is_absolute (path_join base p) = true.
Proof.
  intros Hb. unfold path_join. destruct (is_absolute p) eqn:E; [done|]. destruct base as [|c base]; [done|].
  destruct (_ || _); simpl; simpl in Hb; by destruct c as [[] [] [] [] [] [] [] []].
Qed.

(** ** $KEY *)
Lemma not_contains_tail p c s : ~ contains p (String c s) -> ~ contains p s.
Proof. intros H (a & b & ->). apply H. by exists (String c a), b. Qed.

Lemma replace_key_step key c s : (forall r, String c s <> "$KEY" +:+ r) -> replace_key key (String c s) = String c (replace_key key s).
Proof.
  intros H. destruct c as [[] [] [] [] [] [] [] []]; try done.
  destruct s as [|[[] [] [] [] [] [] [] []] s]; try done. destruct s as [|[[] [] [] [] [] [] [] []] s]; try done.
  destruct s as [|[[] [] [] [] [] [] [] []] s]; try done. by destruct (H s).
Qed.

Lemma replace_key_part key p rest : ~ contains "$KEY" p ->
  replace_key key (p +:+ "$KEY" +:+ rest) = p +:+ key +:+ replace_key key rest.
Proof.
  induction p as [|c p IH]; intros Hp; [done|].
  change (replace_key key (String c (p +:+ "$KEY" +:+ rest)) = String c (p +:+ key +:+ replace_key key rest)).
  rewrite <- IH by (by eapply not_contains_tail).
  rewrite replace_key_step; [done|]. intros r Hr.
  destruct p as [|c1 p]; [simpl in Hr; by simplify_eq|]. destruct p as [|c2 p]; [simpl in Hr; by simplify_eq|].
  destruct p as [|c3 p]; [simpl in Hr; by simplify_eq|]. simpl in Hr. injection Hr as -> -> -> -> _. apply Hp. exists "", p. done.
Qed.

Lemma replace_key_none key p : ~ contains "$KEY" p -> replace_key key p = p.
Proof.
  induction p as [|c p IH]; intros Hp; [done|]. rewrite replace_key_step; [f_equal; by apply IH, not_contains_tail with c|].
  intros r Hr. apply Hp. exists "", r. done.
Qed.

Lemma replace_key_joined key parts : parts <> [] -> Forall (fun p => ~ contains "$KEY" p) parts ->
  replace_key key (joined_by "$KEY" parts) = joined_by key parts.
Proof.
  induction parts as [|p parts IH]; intros Hne HF; [done|]. inversion HF as [|? ? Hp HF']; subst. destruct parts as [|q parts].
  - by apply replace_key_none.
  - change (joined_by "$KEY" (p :: q :: parts)) with (p +:+ "$KEY" +:+ joined_by "$KEY" (q :: parts)).
    change (joined_by key (p :: q :: parts)) with (p +:+ key +:+ joined_by key (q :: parts)).
    rewrite replace_key_part by done. by rewrite IH.
Qed.

Lemma key_prefix_dec s : (exists r, s = "$KEY" +:+ r) \/ (forall r, s <> "$KEY" +:+ r).
Proof.
  destruct s as [|a [|b [|c [|d s]]]]; try (by right).
  destruct (decide (a = "$"%char /\ b = "K"%char /\ c = "E"%char /\ d = "Y"%char)) as [(-> & -> & -> & ->)|Hn]; [left; by exists s|].
  right. intros r Hr. simpl in Hr. injection Hr as -> -> -> -> _. by apply Hn.
Qed.

Lemma key_parts s : exists parts, parts <> [] /\ Forall (fun p => ~ contains "$KEY" p) parts /\ s = joined_by "$KEY" parts.
Proof.
  assert (forall n s, String.length s <= n ->
    exists parts, parts <> [] /\ Forall (fun p => ~ contains "$KEY" p) parts /\ s = joined_by "$KEY" parts) as H.
  2: { by apply (H (String.length s)). }
  clear s. assert (~ contains "$KEY" "") as Hnil by (intros ([|] & b & ?); done).
  induction n as [|n IH]; intros s Hs.
  - destruct s; simpl in Hs; [|lia]. exists [""]. repeat constructor; done.
  - destruct s as [|c s]; [exists [""]; repeat constructor; done|].
    destruct (key_prefix_dec (String c s)) as [[r Hr]|Hp].
    + destruct (IH r) as (parts & Hne & HF & E).
      { apply (f_equal String.length) in Hr. rewrite slength_app in Hr. simpl in *. lia. }
      exists ("" :: parts). split; [done|]. split; [by constructor|]. rewrite Hr, E. destruct parts; done.
    + destruct (IH s) as (parts & Hne & HF & E); [simpl in Hs; lia|]. destruct parts as [|p parts]; [done|].
      inversion HF as [|? ? Hq HF']; subst. exists (String c p :: parts). split; [done|]. split.
      * constructor; [|done]. intros ([|x a] & b & Hab).
        -- destruct parts as [|q parts].
           ++ by apply (Hp b).
           ++ apply (Hp (b +:+ "$KEY" +:+ joined_by "$KEY" (q :: parts))). simpl in Hab. injection Hab as -> ->. by cbn [joined_by].
        -- simpl in Hab. injection Hab as -> ->. apply Hq. by exists a, b.
      * destruct parts; done.
Qed.

Lemma replace_key_iff key s s' : replace_key key s = s' <-> key_replaced key s s'.
Proof.
  split.
  - intros <-. destruct (key_parts s) as (parts & Hne & HF & ->). exists parts. split; [done|]. split; [done|]. split; [done|]. by apply replace_key_joined.
  - intros (parts & Hne & HF & -> & ->). by apply replace_key_joined.
Qed.

(** ** Numbers *)
Lemma string_of_uint_no c u : (N_of_ascii c < 48 \/ 57 < N_of_ascii c)%N -> ~ has_char c (NilEmpty.string_of_uint u).
Proof.
  intros Hc (a & b & E). revert a E. induction u as [|u IH|u IH|u IH|u IH|u IH|u IH|u IH|u IH|u IH|u IH]; intros [|x a] E; simpl in E; try done;
    injection E as E0 E; try (by apply (IH a)); subst c; vm_compute in Hc; destruct Hc; done.
Qed.

Lemma decimal_inj n m : decimal n = decimal m -> n = m.
Proof.
  unfold decimal. intros H. apply (f_equal NilEmpty.uint_of_string) in H. rewrite !NilEmpty.usu in H. injection H as H.
  apply (f_equal N.of_uint) in H. by rewrite !Unsigned.of_to in H.
Qed.

Lemma no_dot n : ~ has_char "." (decimal n).
Proof. apply string_of_uint_no. left. done. Qed.
Lemma no_slash n : ~ has_char "/" (decimal n).
Proof. apply string_of_uint_no. left. done. Qed.

Lemma attempt_name_inj k c k' c' : attempt_name k c = attempt_name k' c' -> k = k' /\ c = c'.
Proof.
  unfold attempt_name. intros H. apply split_last in H as [-> H]; [|apply no_dot..]. split; [done|]. by apply decimal_inj.
Qed.

Lemma digits_value_pos u : forall p, digits_value (N.pos p) (NilEmpty.string_of_uint u) = Some (N.pos (Pos.of_uint_acc u p)).
Proof.
  induction u as [|u IH|u IH|u IH|u IH|u IH|u IH|u IH|u IH|u IH|u IH]; intros p; [done|..];
    cbn [NilEmpty.string_of_uint digits_value];
    match goal with |- (if ?b then _ else _) = _ => change b with true end; cbn [Pos.of_uint_acc];
    match goal with |- digits_value ?x _ = Some (N.pos (Pos.of_uint_acc _ ?y)) =>
      replace x with (N.pos y); [apply IH|] end;
    match goal with |- _ = (_ + ?d)%N => let v := eval vm_compute in d in change d with v end; lia.
Qed.

Lemma digits_value_uint u : digits_value 0 (NilEmpty.string_of_uint u) = Some (N.of_uint u).
Proof.
  induction u as [|u IH|u IH|u IH|u IH|u IH|u IH|u IH|u IH|u IH|u IH]; [done|..]; cbn [NilEmpty.string_of_uint digits_value];
    match goal with |- (if ?b then _ else _) = _ => change b with true end.
  1: exact IH. all: apply digits_value_pos.
Qed.

Lemma decimal_value n : digits_value 0 (decimal n) = Some n.
Proof. unfold decimal. rewrite digits_value_uint. f_equal. apply Unsigned.of_to. Qed.

Lemma decimal_no_zero n : begins_with "0" (decimal n) -> n = 0%N.
Proof.
  intros [b H]. unfold decimal in H. pose proof (Unsigned.to_of (N.to_uint n)) as Hn. rewrite Unsigned.of_to in Hn.
  destruct (N.to_uint n) as [|u|u|u|u|u|u|u|u|u|u] eqn:E; simpl in H; try done.
  unfold Decimal.unorm in Hn. simpl in Hn.
  destruct (Decimal.nzhead u) as [|v|v|v|v|v|v|v|v|v|v] eqn:Ev; try done.
  - injection Hn as ->. rewrite <- (Unsigned.of_to n), E. done.
  - by apply DecimalFacts.nzhead_nonzero in Ev.
Qed.

Lemma decimal_nonempty n : decimal n <> "".
Proof.
  unfold decimal. destruct (N.to_uint n) eqn:E; try done. assert (n = 0%N) as -> by (by rewrite <- (Unsigned.of_to n), E). done.
Qed.

(** ** Sessions *)
Open Scope list_scope.
Lemma last_header_app es o new : last_header es (Some o) -> (forall h, ~ In (Header h) new) -> last_header (es ++ new) (Some o).
Proof.
  intros (pre & post & -> & Hp) Hn. exists pre, (post ++ new). split; [by rewrite <- List.app_assoc|].
  intros h' Hin. apply in_app_iff in Hin as [Hin|Hin]; [by apply (Hp h')|by apply (Hn h')].
Qed.

Lemma log_grows w ev w' p p' : winv w -> wstep w ev w' -> w_proc w = Some p -> w_proc w' = Some p' ->
  exists new, plog p' = plog p ++ new /\ forall h, ~ In (Header h) new.
Proof.
  intros [HF Hi] Hs Hp Hp'. destruct Hs; cbn [w_proc w_file] in *; simplify_eq; try done.
  - destruct (add_inv _ _ _ _ _ _ _ _ _ _ Hi H H0) as (_ & Hl & _). exists []. unfold plog. cbn [p_graph]. rewrite Hl, app_nil_r. split; [done|by intros ? []].
  - destruct (begin_execute _ _ _ Hi H) as (e' & cfg' & ids & bs & Hb).
    destruct (begun_unique _ _ _ _ _ _ _ _ Hb H0) as [-> ->]. exists (brefs bs). unfold plog at 1. cbn [p_graph].
    rewrite (bg_log _ _ _ _ _ _ Hb). split; [done|]. apply brefs_no_header.
  - destruct (begin_execute _ _ _ Hi H) as (e' & cfg' & ids & bs & Hb).
    destruct (begun_unique _ _ _ _ _ _ _ _ Hb H0) as [-> ->]. assert (reachable cfg' s t) as Hr by (by exists acts).
    destruct (run_inv _ _ _ _ _ _ _ _ _ Hi Hb Hr) as (_ & _ & new & He & Ht & _). exists (brefs bs ++ new).
    unfold plog at 1. cbn [p_graph end_execute logfile]. split; [done|]. intros h' Hin.
    apply in_app_iff in Hin as [Hin|Hin]; [by apply brefs_no_header in Hin|by eapply task_rec_no_header].
Qed.

Lemma session_roots h w p h0 a s :
  possible h w -> w_proc w = Some p -> h = h0 ++ HOpened a :: s -> no_open s ->
  exists hd, log_header (lf_state (logfile (p_graph p))) = Some hd /\ last_header (plog p) (Some hd) /\
    h_storage_roots hd = map (replace_key (h_workflow_key hd)) (oa_roots a).
Proof.
  intros Hh. revert p s. induction Hh as [|h w ev w' Hh IH Hs] using possible_ind'; intros p s Hp E Hno; [by destruct h0|].
  assert (exists hd, last_header (plog p) (Some hd) /\ h_storage_roots hd = map (replace_key (h_workflow_key hd)) (oa_roots a)) as (hd & Hl & Hr).
  2: { exists hd. split; [|done]. assert (winv w') as [_ Hi] by (eapply wstep_inv; [by eapply possible_inv|done]). rewrite Hp in Hi.
       pose proof (memory_agrees _ _ (pi_log _ _ Hi)) as (_ & _ & Hm). by eapply last_header_unique. }
  destruct s as [|x s _] using rev_ind.
  - apply app_inj_tail in E as [-> ->]. pose proof (possible_inv _ _ Hh) as [HF _]. inversion Hs; subst. cbn [w_proc w_file] in *. simplify_eq.
    destruct (open_works F a HF) as (l & p' & Hl & Ho' & Hlog & _). simplify_eq. exists (session_header l a). split.
    + unfold plog. rewrite Hlog. cbn [lf_entries]. exists F, []. split; [done|by intros ? []].
    + done.
  - rewrite app_comm_cons, List.app_assoc in E. apply app_inj_tail in E as [-> ->].
    assert (no_open s) as Hno' by (intros b Hin; apply (Hno b), in_app_iff; by left).
    destruct (proc_before _ _ _ _ Hs Hp) as [p1 Hp1].
    { intros b ->. apply (Hno b), in_app_iff. right. by left. }
    destruct (IH _ _ Hp1 eq_refl Hno') as (hd & _ & Hl & Hr). exists hd. split; [|done].
    destruct (log_grows _ _ _ _ _ (possible_inv _ _ Hh) Hs Hp1 Hp) as (new & -> & Hn). by apply last_header_app.
Qed.

Lemma resolve_eq dir p : (if is_absolute p then p else path_join dir p) = path_join dir p.
Proof. unfold path_join. by destruct (is_absolute p). Qed.

Lemma storage_root_path_eq dir st hd i : log_header st = Some hd ->
  storage_root_path dir st i = option_map (path_join dir) (h_storage_roots hd !! N.to_nat i).
Proof.
  intros H. unfold storage_root_path, storage_root. rewrite H. destruct (h_storage_roots hd !! N.to_nat i); simpl; [|done]. by rewrite resolve_eq.
Qed.

Lemma collect_some {A} (l : list A) : collect (map Some l) = Some l.
Proof. induction l as [|x l IH]; simpl; [done|]. by rewrite IH. Qed.

Lemma all_storage_roots_eq dir st hd : log_header st = Some hd ->
  all_storage_roots dir st = Some (map (path_join dir) (h_storage_roots hd)).
Proof.
  intros H. unfold all_storage_roots. rewrite H.
  rewrite (map_ext_in _ (fun id => option_map (path_join dir) (h_storage_roots hd !! id))).
  2: { intros id _. rewrite (storage_root_path_eq _ _ _ _ H). by rewrite Nat2N.id. }
  rewrite <- collect_some. f_equal. apply list_eq. intros j. rewrite !list_lookup_fmap.
  destruct (decide (j < length (h_storage_roots hd))) as [Hj|Hj].
  - rewrite lookup_seq_lt by done. simpl. destruct (lookup_lt_is_Some_2 _ _ Hj) as [x Hx]. rewrite Hx. done.
  - rewrite (lookup_ge_None_2 (seq _ _)) by (rewrite seq_length; lia). rewrite (lookup_ge_None_2 (h_storage_roots hd)) by lia. done.
Qed.

Lemma runcount_eq dir st key :
  py_logfile_runcount dir st key =
  match logfile_runcount st key with
  | None => None
  | Some (c, None) => Some (c, None)
  | Some (c, Some root) => Some (c, Some (path_join (path_join dir root) (attempt_name key c)))
  end.
Proof.
  unfold py_logfile_runcount, logfile_runcount. destruct (runcount st key) as [[| |c i []]|]; try done.
  unfold storage_root_path. destruct (storage_root st i); simpl; [|done]. by rewrite resolve_eq.
Qed.

Lemma opened_before h w p : possible h w -> w_proc w = Some p -> exists h0 a s, h = h0 ++ HOpened a :: s /\ no_open s.
Proof.
  intros Hh. revert p. induction Hh as [|h w ev w' Hh IH Hs] using possible_ind'; intros p Hp; [done|].
  assert ((exists a, ev = HOpened a) \/ ~ exists a, ev = HOpened a) as [[a ->]|Hn].
  { destruct ev; try (right; by intros [? ?]). left. eauto. }
  1: { exists h, a, []. split; [done|by intros ? []]. }
  destruct (proc_before _ _ _ _ Hs Hp) as [p1 Hp1]; [intros a ->; apply Hn; by exists a|].
  destruct (IH _ Hp1) as (h0 & a & s & -> & Hno). exists h0, a, (s ++ [ev]). split; [by rewrite <- List.app_assoc|].
  intros b Hin. apply in_app_iff in Hin as [Hin|[->|[]]]; [by apply (Hno b)|]. apply Hn. by exists b.
Qed.

Lemma has_last_header h w p : possible h w -> w_proc w = Some p ->
  exists hd, log_header (lf_state (logfile (p_graph p))) = Some hd /\ last_header (plog p) (Some hd).
Proof.
  intros Hh Hp. destruct (opened_before _ _ _ Hh Hp) as (h0 & a & s & E & Hno).
  destruct (session_roots _ _ _ _ _ _ Hh Hp E Hno) as (hd & ? & ? & _). eauto.
Qed.

Lemma state_of h w p k o : possible h w -> w_proc w = Some p -> status_in (current_log w) k o ->
  runcount (lf_state (logfile (p_graph p))) k = o.
Proof.
  intros Hh Hp Hst. pose proof (possible_inv _ _ Hh) as [_ Hi]. rewrite Hp in Hi. unfold current_log in Hst. rewrite Hp in Hst.
  eapply status_in_unique; [apply (log_ok_status _ k (pi_log _ _ Hi))|exact Hst].
Qed.

Lemma attempt_name_relative k c : ~ begins_with "/" k -> is_absolute (attempt_name k c) = false.
Proof.
  intros H. destruct (is_absolute (attempt_name k c)) eqn:E; [|done]. apply is_absolute_iff in E as [b E]. destruct H.
  destruct k as [|x k]; [done|]. simpl in E. injection E as -> _. by exists k.
Qed.

Lemma has_char_app c a b : has_char c (a +:+ b) -> has_char c a \/ has_char c b.
Proof.
  revert b. induction a as [|x a IH]; intros b; [by right|]. intros ([|y u] & v & E); simpl in E.
  - injection E as -> <-. left. by exists "", a.
  - injection E as -> E. destruct (IH b) as [(u' & v' & ->)|?]; [by exists u, v| |by right]. left. by exists (String y u'), v'.
Qed.

Lemma attempt_name_no_slash k c : ~ has_char "/" k -> ~ has_char "/" (attempt_name k c).
Proof.
  intros Hk H. apply has_char_app in H as [H|H]; [done|]. apply (has_char_app "/" "." _) in H as [([|x [|y a]] & b & H)|H]; [done..|by apply no_slash in H].
Qed.

Lemma no_slash_relative k : ~ has_char "/" k -> ~ begins_with "/" k.
Proof. intros H [b ->]. apply H. by exists "", b. Qed.

Lemma join_parts base k c : base <> "" -> ~ has_char "/" k ->
  exists pre, path_join base (attempt_name k c) = pre +:+ String "/" (attempt_name k c).
Proof.
  intros Hb Hk. rewrite path_join_rel; [|by apply attempt_name_relative, no_slash_relative|done].
  destruct (ends_in_slash base) eqn:E.
  - apply ends_in_slash_iff in E as [b ->]. exists b. by rewrite sapp_assoc.
  - exists base. by rewrite sapp_assoc.
Qed.

Lemma join_distinct base base' k c k' c' : base <> "" -> base' <> "" -> ~ has_char "/" k -> ~ has_char "/" k' ->
  path_join base (attempt_name k c) = path_join base' (attempt_name k' c') -> k = k' /\ c = c'.
Proof.
  intros Hb Hb' Hk Hk' E. destruct (join_parts base k c Hb Hk) as [a Ha], (join_parts base' k' c' Hb' Hk') as [a' Ha'].
  rewrite Ha, Ha' in E. apply split_last in E as [_ E]; [|by apply attempt_name_no_slash..]. by apply attempt_name_inj.
Qed.

Lemma absolute_nonempty p : is_absolute p = true -> p <> "".
Proof. by intros H ->. Qed.

(** The record of the last attempt of [k] is [r]. *)
Lemma status_of_ready es k c i pre r post :
  status_in es k (Some (RFinished c i true)) -> es = pre ++ Ready r :: post -> r_key r = k ->
  (forall r', In (Ready r') post -> r_key r' <> k) -> r_runcount r = c /\ r_storage_root r = i.
Proof.
  intros (pre' & r' & m1 & s & m2 & f & post' & E' & Hr' & Hc & Hi & Hm1 & Hs & Hm2 & Hf & _ & Hp') E Hk Hpost.
  rewrite E in E'. apply app_split in E' as [(l2 & Ha & Hb)|(n1 & Ha & Hb)].
  - exfalso. assert (In (Ready r) (m1 ++ Started s :: m2 ++ Finished f :: post')) as Hin by (rewrite Hb; apply in_app_iff; right; by left).
    apply in_app_iff in Hin as [Hin|[Hin|Hin]]; [apply Hm1 in Hin|done|apply in_app_iff in Hin as [Hin|[Hin|Hin]]; [apply Hm2 in Hin|done|apply Hp' in Hin]];
      by rewrite record_of_ready in Hin.
  - destruct n1 as [|y n1]; simpl in Ha; [by injection Ha as ->|]. injection Ha as _ Ha. exfalso.
    apply (Hpost r'); [|done]. rewrite Ha. apply in_app_iff. right. by left.
Qed.

Lemma records_of_execute h w p ev w' tg cfg t : possible h w -> w_proc w = Some p -> wstep w ev w' ->
  execution ev = Some (tg, cfg, t) -> forall r, In (Ready r) (current_log w') -> ~ In (Ready r) (current_log w) ->
  exists n cm, nodes (deps (p_graph p)) !! n = Some cm /\ c_key cm = r_key r /\ c_runcount cm = r_runcount r /\ c_storage_root cm = r_storage_root r.
Proof.
  intros Hh Hp Hs He r Hin Hnin. pose proof (possible_inv _ _ Hh) as [HF Hi]. rewrite Hp in Hi.
  assert (forall x e cfg s t, args_ok x -> start_execute p x = Some (e, cfg) -> reachable cfg s t ->
    In (Ready r) (lf_entries (sv_log (st_sv s))) -> ~ In (Ready r) (plog p) -> 
    exists n cm, nodes (deps (p_graph p)) !! n = Some cm /\ c_key cm = r_key r /\ c_runcount cm = r_runcount r /\ c_storage_root cm = r_storage_root r) as Hmain.
  { clear Hin Hnin. intros x e cfg' s t' Hx Hst Hr Hin Hnin.
    destruct (begin_execute _ _ _ Hi Hx) as (e' & cfg2 & ids & bs & Hb). destruct (begun_unique _ _ _ _ _ _ _ _ Hb Hst) as [-> ->].
    destruct (execute_records _ _ _ (begun_config _ _ _ _ _ _ _ Hi Hb) Hr) as (new & E & _ & _ & _ & _ & Hrd).
    rewrite E, (bg_cflog _ _ _ _ _ _ Hb), (bg_log _ _ _ _ _ _ Hb) in Hin. cbn [lf_entries] in Hin.
    rewrite !in_app_iff in Hin. destruct Hin as [[Hin|Hin]|Hin]; [done|by apply brefs_in in Hin as (? & ? & _)|].
    destruct (Hrd _ Hin) as (n & cm & Hn & Hk & Hc & Hsr). destruct (runs_part_of _ _ _ _ _ _ Hb) as (_ & Hlen & Hsame & _).
    pose proof (lookup_lt_Some _ _ _ Hn) as Hlt. rewrite <- Hlen in Hlt. destruct (lookup_lt_is_Some_2 _ _ Hlt) as [m Hm].
    destruct (Hsame _ _ Hm) as (c1 & c2 & H1 & H2 & S). rewrite Hn in H2. injection H2 as <-. exists m, c1. split; [done|].
    destruct S as (?&?&?&?&?&?). repeat split; congruence. }
  unfold current_log in Hnin. rewrite Hp in Hnin.
  destruct Hs; cbn [w_proc w_file execution] in *; simplify_eq; cbn [current_log w_proc w_file] in Hin.
  - destruct (begin_execute _ _ _ Hi H) as (e' & cfg2 & ids & bs & Hb). destruct (begun_unique _ _ _ _ _ _ _ _ Hb H0) as [-> ->].
    cbn [p_graph] in Hin. rewrite (bg_log _ _ _ _ _ _ Hb) in Hin. cbn [lf_entries] in Hin. apply in_app_iff in Hin as [Hin|Hin]; [done|].
    by apply brefs_in in Hin as (? & ? & _).
  - eapply Hmain; [done|done|by exists acts|exact Hin|done].
  - eapply Hmain; [done|done|by exists acts| |done]. rewrite <- (take_drop n (lf_entries _)). apply in_app_iff. left. exact Hin.
Qed.
