(** Proofs about the encoding of messages. *)
From Verif Require Export MsgSpec.
From Coq Require Import Lia.
From stdpp Require Import prelude.
Open Scope N_scope.

Lemma code_of n : n < 256 -> code (ascii_of_N n) = n.
Proof. apply N_ascii_embedding. Qed.
Lemma code_bound a : code a < 256.
Proof. apply N_ascii_bounded. Qed.
Lemma text_bytes_length s : length (text_bytes s) = String.length s.
Proof. induction s; simpl; [done|]. f_equal. exact IHs. Qed.
Lemma bytes_text_bytes s : bytes_text (text_bytes s) = s.
Proof. apply string_of_list_ascii_of_string. Qed.
Lemma text_bytes_text b : text_bytes (bytes_text b) = b.
Proof. apply list_ascii_of_string_of_list_ascii. Qed.

(** ** The two properties of readers *)
Definition reads {A} (r : reader A) (a : A) (b : bytes) : Prop := forall rest, r (b ++ rest) = Some (a, rest).
Definition extends {A} (r : reader A) : Prop := forall s a t q, r s = Some (a, t) -> r (s ++ q) = Some (a, t ++ q).

Lemma reads_ret {A} (a : A) : reads (ret a) a [].
Proof. by intros rest. Qed.
Lemma reads_bind {A B} (r : reader A) (f : A -> reader B) a b x y :
  reads r a x -> reads (f a) b y -> reads (bind r f) b (x ++ y).
Proof. intros Hr Hf rest. unfold bind. rewrite <- List.app_assoc, Hr. apply Hf. Qed.
Lemma reads_bind_ret {A B} (r : reader A) (f : A -> B) a x : reads r a x -> reads (bind r (fun a => ret (f a))) (f a) x.
Proof. intros Hr. rewrite <- (app_nil_r x). apply (reads_bind r (fun a => ret (f a)) a (f a) x []); [done|apply reads_ret]. Qed.
Lemma extends_ret {A} (a : A) : extends (ret a).
Proof. intros s b t q [= -> ->]. done. Qed.
Lemma extends_fail {A} : extends (fun _ : bytes => @None (A * bytes)).
Proof. intros s b t q [=]. Qed.
Lemma extends_bind {A B} (r : reader A) (f : A -> reader B) : extends r -> (forall a, extends (f a)) -> extends (bind r f).
Proof.
  intros Hr Hf s b t q. unfold bind. destruct (r s) as [[a s']|] eqn:E; [|done].
  rewrite (Hr _ _ _ q E). apply Hf.
Qed.

(** ** Varints *)
Lemma land_lor_128 v : v < 256 -> N.land (N.lor v 128) 128 = 128.
Proof. intros _. apply N.bits_inj. intros j. rewrite N.land_spec, N.lor_spec. destruct (N.testbit 128 j) eqn:E; rewrite ?orb_true_r; [done|by rewrite andb_false_r]. Qed.
Lemma lor_128_lt v : v < 256 -> N.lor v 128 < 256.
Proof.
  intros H. assert (N.lor v 128 = N.lor v 128 mod 2 ^ 8) as ->; [|apply N.mod_lt; lia].
  apply N.bits_inj. intros j. destruct (N.lt_ge_cases j 8) as [Hj|Hj]; [by rewrite N.mod_pow2_bits_low|].
  rewrite N.mod_pow2_bits_high by lia. rewrite N.lor_spec. change 128 with (2 ^ 7). rewrite N.pow2_bits_false by lia.
  rewrite <- (N.mod_small v (2 ^ 8)) by exact H. by rewrite N.mod_pow2_bits_high by lia.
Qed.
Lemma land_127 v : N.land v 127 = v mod 2 ^ 7.
Proof. change 127 with (N.ones 7). apply N.land_ones. Qed.
Lemma low_bits v : N.land (N.lor (v mod 256) 128) 127 = v mod 2 ^ 7.
Proof.
  change 127 with (N.ones 7). change 256 with (2 ^ 8).
  apply N.bits_inj. intros j. rewrite N.land_spec, N.lor_spec.
  destruct (N.lt_ge_cases j 7) as [Hj|Hj].
  - rewrite N.ones_spec_low by lia. rewrite andb_true_r, !N.mod_pow2_bits_low by lia.
    change 128 with (2 ^ 7). rewrite N.pow2_bits_false by lia. apply orb_false_r.
  - rewrite N.ones_spec_high by lia. rewrite andb_false_r, N.mod_pow2_bits_high by lia. done.
Qed.
Lemma join_bits out v i : N.lor (N.lor out (N.shiftl (v mod 2 ^ 7) (N.of_nat (7 * i)))) (N.shiftl (N.shiftr v 7) (N.of_nat (7 * S i)))
  = N.lor out (N.shiftl v (N.of_nat (7 * i))).
Proof.
  rewrite <- N.lor_assoc. f_equal. replace (N.of_nat (7 * S i)) with (7 + N.of_nat (7 * i)) by lia.
  rewrite <- N.shiftl_shiftl. rewrite <- N.shiftl_lor. f_equal.
  apply N.bits_inj. intros j. rewrite N.lor_spec. destruct (N.lt_ge_cases j 7) as [Hj|Hj].
  - rewrite N.mod_pow2_bits_low, N.shiftl_spec_low by lia. apply orb_false_r.
  - rewrite N.mod_pow2_bits_high, N.shiftl_spec_high', N.shiftr_spec' by lia. simpl. f_equal. lia.
Qed.

Lemma get_put_varint last k : last < 128 -> forall i out v, v < (2 ^ 7) ^ N.of_nat k * (last + 1) ->
  reads (get_varint last (S k) i out) (N.lor out (N.shiftl v (N.of_nat (7 * i)))) (put_varint (S k) v).
Proof.
  intros Hlast. induction k as [|k IH]; intros i out v Hv rest.
  - change (N.of_nat 0) with 0 in Hv. rewrite N.pow_0_r in Hv.
    cbn [put_varint]. rewrite (proj2 (N.ltb_lt v 128)) by lia. cbn [app get_varint].
    rewrite code_of by lia. rewrite land_127.
    assert (N.land v 128 = 0) as ->.
    { change 128 with (2 ^ 7). apply N.bits_inj. intros j. rewrite N.land_spec, N.bits_0.
      destruct (N.eq_dec j 7) as [->|]; [|rewrite N.pow2_bits_false by lia; apply andb_false_r].
      rewrite <- (N.mod_small v (2 ^ 7)) by (change (2 ^ 7) with 128; lia). rewrite N.mod_pow2_bits_high by lia. done. }
    cbn [N.eqb Nat.eqb andb]. rewrite (proj2 (N.ltb_ge last v)) by lia. rewrite N.mod_small by (change (2 ^ 7) with 128; lia). done.
  - remember (S k) as k1. cbn [put_varint]. destruct (N.ltb_spec v 128) as [Hs|Hs].
    + cbn [app get_varint]. rewrite code_of by lia. rewrite land_127.
      assert (N.land v 128 = 0) as ->.
      { change 128 with (2 ^ 7). apply N.bits_inj. intros j. rewrite N.land_spec, N.bits_0.
        destruct (N.eq_dec j 7) as [->|]; [|rewrite N.pow2_bits_false by lia; apply andb_false_r].
        rewrite <- (N.mod_small v (2 ^ 7)) by (change (2 ^ 7) with 128; lia). rewrite N.mod_pow2_bits_high by lia. done. }
      subst k1. cbn [N.eqb Nat.eqb andb]. rewrite N.mod_small by (change (2 ^ 7) with 128; lia). done.
    + cbn [app]. cbn [get_varint]. assert (v mod 256 < 256) by (apply N.mod_lt; lia).
      rewrite code_of by (apply lor_128_lt; lia). rewrite land_lor_128 by done. rewrite low_bits.
      change (N.eqb 128 0) with false. cbv iota. subst k1. rewrite IH; [by rewrite join_bits|].
      rewrite N.shiftr_div_pow2. apply N.div_lt_upper_bound; [lia|].
      rewrite Nat2N.inj_succ, N.pow_succ_r' in Hv. lia.
Qed.

Lemma get_put_u32 v : is_u32 v -> reads get_u32 v (put_u32 v).
Proof.
  intros H. pose proof (get_put_varint 15 4 ltac:(lia) 0 0 v) as P. rewrite N.shiftl_0_r, N.lor_0_l in P.
  apply P. exact H.
Qed.
Lemma get_put_u64 v : is_u64 v -> reads get_u64 v (put_u64 v).
Proof.
  intros H. pose proof (get_put_varint 1 9 ltac:(lia) 0 0 v) as P. rewrite N.shiftl_0_r, N.lor_0_l in P.
  apply P. exact H.
Qed.
Lemma extends_varint last k : forall i out, extends (get_varint last k i out).
Proof.
  induction k as [|k IH]; intros i out s a t q; [done|]. cbn [get_varint]. destruct s as [|c s]; [done|]. cbn [app].
  destruct (N.eqb _ 0); [|apply IH]. destruct (_ && _); [done|]. by intros [= <- <-].
Qed.
Lemma extends_u32 : extends get_u32.
Proof. apply extends_varint. Qed.
Lemma extends_u64 : extends get_u64.
Proof. apply extends_varint. Qed.

Lemma unzigzag_zigzag z : unzigzag (zigzag z) = z.
Proof.
  unfold zigzag. destruct (Z.ltb_spec z 0).
  - replace (Z.to_N (-2 * z - 1)) with (2 * Z.to_N (- z - 1) + 1) by lia. unfold unzigzag.
    rewrite N.even_add_mul_2 || rewrite N.add_comm, N.even_add_mul_2. cbn [N.even].
    replace ((1 + 2 * Z.to_N (- z - 1)) / 2) with (Z.to_N (- z - 1)) by (rewrite (N.mul_comm 2), N.div_add by lia; reflexivity). lia.
  - replace (Z.to_N (2 * z)) with (0 + 2 * Z.to_N z) by lia. unfold unzigzag. rewrite N.even_add_mul_2. cbn [N.even].
    replace ((0 + 2 * Z.to_N z) / 2) with (Z.to_N z) by (rewrite (N.mul_comm 2), N.div_add by lia; reflexivity). lia.
Qed.
Lemma zigzag_u32 z : is_i32 z -> is_u32 (zigzag z).
Proof. unfold is_i32, is_u32, zigzag. intros H. destruct (Z.ltb_spec z 0); lia. Qed.
Lemma get_put_i32 z : is_i32 z -> reads get_i32 z (put_i32 z).
Proof.
  intros H. unfold get_i32, put_i32. rewrite <- (unzigzag_zigzag z) at 1.
  apply (reads_bind_ret get_u32 unzigzag), get_put_u32, zigzag_u32, H.
Qed.
Lemma extends_i32 : extends get_i32.
Proof. apply extends_bind; [apply extends_u32|]. intros; apply extends_ret. Qed.

(** ** Strings and sequences *)
Lemma get_put_n b : reads (get_n (N.of_nat (length b))) b b.
Proof.
  intros rest. unfold get_n. rewrite app_length, (proj2 (N.ltb_ge _ _)) by lia.
  rewrite Nat2N.id. by rewrite take_app, drop_app.
Qed.
Lemma extends_n n : extends (get_n n).
Proof.
  intros s a t q. unfold get_n. destruct (N.ltb_spec (N.of_nat (length s)) n); [done|]. intros [= <- <-].
  rewrite app_length, (proj2 (N.ltb_ge _ _)) by lia.
  by rewrite take_app_le, drop_app_le by lia.
Qed.
Lemma get_put_str s : is_text s -> reads get_str s (put_str s).
Proof.
  intros [Hv Hl]. unfold get_str, put_str. eapply reads_bind; [apply get_put_u64; exact Hl|].
  rewrite <- (app_nil_r (text_bytes s)). eapply reads_bind.
  - rewrite <- text_bytes_length. apply get_put_n.
  - intros rest. cbn [app]. rewrite Hv. by rewrite bytes_text_bytes.
Qed.
Lemma extends_str : extends get_str.
Proof.
  apply extends_bind; [apply extends_u64|]. intros n. apply extends_bind; [apply extends_n|]. intros b s a t q.
  destruct (utf8_valid b); [|done]. by intros [= <- <-].
Qed.

Lemma get_put_times {A C} (r : reader A) (put : C -> bytes) l cs :
  Forall2 (fun a c => reads r a (put c)) l cs -> reads (get_times r (length l)) l (List.concat (map put cs)).
Proof.
  induction 1 as [|a c l cs H _ IH]; cbn; [apply reads_ret|]. eapply reads_bind; [exact H|].
  by apply (reads_bind_ret _ (fun l => a :: l)).
Qed.
Lemma get_put_seq_as {A C} (r : reader A) (put : C -> bytes) l cs :
  is_vec l -> Forall2 (fun a c => reads r a (put c)) l cs -> reads (get_seq r) l (put_seq put cs).
Proof.
  intros Hl H. unfold get_seq, put_seq. rewrite <- (Forall2_length _ _ _ H).
  eapply reads_bind; [apply get_put_u64; exact Hl|]. rewrite Nat2N.id. by apply get_put_times.
Qed.
Lemma get_put_seq {A} (r : reader A) (put : A -> bytes) (P : A -> Prop) l :
  (forall a, P a -> reads r a (put a)) -> is_vec l -> Forall P l -> reads (get_seq r) l (put_seq put l).
Proof.
  intros H Hl HP. apply get_put_seq_as; [done|]. clear Hl. induction HP; constructor; auto.
Qed.
Lemma extends_times {A} (r : reader A) n : extends r -> extends (get_times r n).
Proof.
  intros Hr. induction n as [|n IH]; cbn; [apply extends_ret|]. apply extends_bind; [done|]. intros a.
  apply extends_bind; [done|]. intros l. apply extends_ret.
Qed.
Lemma extends_seq {A} (r : reader A) : extends r -> extends (get_seq r).
Proof. intros Hr. apply extends_bind; [apply extends_u64|]. intros n. by apply extends_times. Qed.
Lemma extends_u8 : extends get_u8.
Proof. intros [|c s] a t q; [done|]. by intros [= <- <-]. Qed.
Lemma get_put_u8s b : is_vec b -> reads get_u8s b (put_u8s b).
Proof. intros H. apply (get_put_seq _ _ (fun _ => True)); [|done|by apply Forall_true]. by intros c _ rest. Qed.
Lemma extends_u8s : extends get_u8s.
Proof. apply extends_seq, extends_u8. Qed.

Lemma get_put_option {A} (r : reader A) (put : A -> bytes) (P : A -> Prop) o :
  (forall a, P a -> reads r a (put a)) -> of_option P o -> reads (get_option r) o (put_option put o).
Proof.
  intros H Ho. destruct o as [a|]; unfold get_option, put_option.
  - change (ascii_of_N 1 :: put a) with ([ascii_of_N 1] ++ put a). eapply reads_bind.
    + intros rest. reflexivity.
    + cbn [code N.eqb]. change (N.eqb (code (ascii_of_N 1)) 0) with false. change (N.eqb (code (ascii_of_N 1)) 1) with true.
      cbv iota. apply (reads_bind_ret _ Some). by apply H.
  - intros rest. reflexivity.
Qed.
Lemma extends_option {A} (r : reader A) : extends r -> extends (get_option r).
Proof.
  intros Hr. apply extends_bind; [apply extends_u8|]. intros c. destruct (N.eqb _ 0); [apply extends_ret|].
  destruct (N.eqb _ 1); [|apply extends_fail]. apply extends_bind; [done|]. intros; apply extends_ret.
Qed.
Lemma get_put_os b : is_vec b -> reads get_os b (put_os b).
Proof. intros H. eapply reads_bind; [apply get_put_u32; done|]. cbn [N.eqb]. by apply get_put_u8s. Qed.
Lemma extends_os : extends get_os.
Proof. apply extends_bind; [apply extends_u32|]. intros v. destruct (N.eqb v 0); [apply extends_u8s|apply extends_fail]. Qed.

(** ** Maps *)
Lemma to_map_app l p : to_map (l ++ [p]) = <[fst p := snd p]> (to_map l).
Proof. unfold to_map. by rewrite fold_left_app. Qed.
Lemma to_map_perm l (m : gmap string string) : l ≡ₚ map_to_list m -> to_map l = m.
Proof.
  revert m. induction l as [|p l IH] using rev_ind; intros m H.
  - symmetry. apply map_to_list_empty_iff. symmetry in H. by apply Permutation_nil_r in H.
  - assert (Hin : p ∈ map_to_list m) by (rewrite <- H; set_solver). destruct p as [k v].
    apply elem_of_map_to_list in Hin. rewrite to_map_app. cbn [fst snd]. rewrite (IH (delete k m)); [by apply insert_delete|].
    pose proof (map_to_list_delete m k v Hin) as Hd. rewrite <- H in Hd.
    rewrite (Permutation_app_comm l [(k, v)]) in Hd. cbn [app] in Hd. symmetry. by apply Permutation_cons_inv in Hd.
Qed.
Lemma get_put_map l m : is_map m -> l ≡ₚ map_to_list m -> reads get_map m (put_pairs l).
Proof.
  intros [Hsz Hm] Hp. unfold get_map, put_pairs. rewrite <- (to_map_perm l m Hp).
  apply (reads_bind_ret _ to_map). apply (get_put_seq _ _ (fun p => is_text (fst p) /\ is_text (snd p))).
  - intros [k v] [Hk Hv]. cbn [fst snd]. eapply reads_bind; [by apply get_put_str|].
    apply (reads_bind_ret _ (fun v => (k, v))). by apply get_put_str.
  - unfold is_vec. rewrite (Permutation_length Hp). exact Hsz.
  - apply Forall_forall. intros [k v] Hin. cbn [fst snd]. rewrite Hp in Hin. apply elem_of_map_to_list in Hin.
    exact (Hm k v Hin).
Qed.
Lemma extends_map : extends get_map.
Proof.
  apply extends_bind; [|intros; apply extends_ret]. apply extends_seq. apply extends_bind; [apply extends_str|]. intros k.
  apply extends_bind; [apply extends_str|]. intros v. apply extends_ret.
Qed.

(** ** Messages *)
Lemma get_put_start_request m : is_start_request m -> reads get_start_request m (put_start_request m).
Proof.
  destruct m as [t s]. intros [Ht Hs]. cbn in *. unfold get_start_request, put_start_request. cbn.
  eapply reads_bind; [by apply get_put_u32|]. apply (reads_bind_ret _ (StartRequest t)). by apply get_put_str.
Qed.
Lemma extends_start_request : extends get_start_request.
Proof. apply extends_bind; [apply extends_u32|]. intros. apply extends_bind; [apply extends_str|]. intros. apply extends_ret. Qed.
Lemma get_put_start_response m : is_start_response m -> reads get_start_response m (put_start_response m).
Proof.
  destruct m as [tx cmd fd p]. intros (Htx & Hc & Hcs & Hf & Hp). cbn in *. unfold get_start_response, put_start_response. cbn [sp_tx sp_cmdline sp_fd_input sp_ping_ms].
  eapply reads_bind; [by apply get_put_u32|].
  eapply reads_bind; [apply (get_put_seq _ _ is_vec); [apply get_put_os|done|done]|].
  eapply reads_bind; [|apply (reads_bind_ret _ (StartResponse tx cmd fd)); by apply get_put_u64].
  eapply get_put_option; [|exact Hf]. intros [z b] [Hz Hb]. cbn [fst snd] in *.
  eapply reads_bind; [by apply get_put_i32|]. apply (reads_bind_ret _ (fun b => (z, b))). by apply get_put_u8s.
Qed.
Lemma extends_start_response : extends get_start_response.
Proof.
  apply extends_bind; [apply extends_u32|]. intros. apply extends_bind; [apply extends_seq, extends_os|]. intros.
  apply extends_bind; [|intros; apply extends_bind; [apply extends_u64|intros; apply extends_ret]].
  apply extends_option, extends_bind; [apply extends_i32|]. intros.
  apply extends_bind; [apply extends_u8s|intros; apply extends_ret].
Qed.
Lemma get_put_begun m : typed KBegunRequest m -> reads get_begun_request m (put_begun_request m).
Proof.
  destruct m as [tx h p]. intros (Htx & Hh & Hp). cbn in *. unfold get_begun_request, put_begun_request. cbn.
  eapply reads_bind; [by apply get_put_u32|]. eapply reads_bind; [by apply get_put_str|].
  apply (reads_bind_ret _ (BegunRequest tx h)). by apply get_put_u32.
Qed.
Lemma get_put_end m values : typed KEndRequest m ->
  Forall2 (fun l (x : gmap string string) => l ≡ₚ map_to_list x) values (eq_values m) ->
  reads get_end_request m (put_end_request m values).
Proof.
  destruct m as [tx z o e v n]. intros (Htx & Hz & Ho & He & Hv & Hvs & Hn) Hord. cbn in *.
  unfold get_end_request, put_end_request. cbn [eq_tx eq_status eq_stdout eq_stderr eq_start].
  eapply reads_bind; [by apply get_put_u32|]. eapply reads_bind; [by apply get_put_i32|].
  eapply reads_bind; [by apply get_put_str|]. eapply reads_bind; [by apply get_put_str|].
  eapply reads_bind.
  - apply (get_put_seq_as get_map put_pairs v values); [done|]. clear Hv. induction Hord as [|l x ls xs H _ IH]; constructor.
    + apply get_put_map; [|done]. by inversion Hvs.
    + apply IH. by inversion Hvs.
  - apply (reads_bind_ret _ (EndRequest tx z o e v)). eapply get_put_option; [|exact Hn]. apply get_put_start_request.
Qed.

Lemma get_encodes k (m : message k) b : typed k m -> encodes k m b -> reads (get_message k) m b.
Proof.
  destruct k; cbn [typed encodes get_message message] in *.
  - intros H ->. destruct m as [tx]. unfold get_ping, put_ping. apply (reads_bind_ret _ Ping). by apply get_put_u32.
  - intros H ->. by apply get_put_start_request.
  - intros H ->. by apply get_put_start_response.
  - intros H ->. by apply get_put_begun.
  - intros H (values & Hord & ->). by apply get_put_end.
  - intros H ->. destruct m as [o]. unfold get_end_response, put_end_response. apply (reads_bind_ret _ EndResponse).
    eapply get_put_option; [|exact H]. apply get_put_start_response.
Qed.
Lemma extends_message k : extends (get_message k).
Proof.
  destruct k; cbn [get_message].
  - apply extends_bind; [apply extends_u32|]. intros; apply extends_ret.
  - apply extends_start_request.
  - apply extends_start_response.
  - apply extends_bind; [apply extends_u32|]. intros. apply extends_bind; [apply extends_str|]. intros.
    apply extends_bind; [apply extends_u32|]. intros; apply extends_ret.
  - apply extends_bind; [apply extends_u32|]. intros. apply extends_bind; [apply extends_i32|]. intros.
    apply extends_bind; [apply extends_str|]. intros. apply extends_bind; [apply extends_str|]. intros.
    apply extends_bind; [apply extends_seq, extends_map|]. intros.
    apply extends_bind; [apply extends_option, extends_start_request|]. intros; apply extends_ret.
  - apply extends_bind; [apply extends_option, extends_start_response|]. intros; apply extends_ret.
Qed.

Lemma decode_app k (m : message k) b rest : typed k m -> encodes k m b -> decode k (b ++ rest) = Some m.
Proof. intros Ht He. unfold decode, from_bytes. by rewrite (get_encodes k m b Ht He). Qed.
Lemma decode_encoded k (m : message k) b : typed k m -> encodes k m b -> decode k b = Some m.
Proof. intros Ht He. rewrite <- (app_nil_r b). by apply decode_app. Qed.
Lemma decode_prefix k (m : message k) p q : typed k m -> encodes k m (p ++ q) -> q <> [] -> decode k p = None.
Proof.
  intros Ht He Hq. unfold decode, from_bytes. destruct (get_message k p) as [[m' t]|] eqn:E; [|done]. exfalso.
  apply (extends_message k _ _ _ q) in E. pose proof (get_encodes k m _ Ht He []) as R. rewrite app_nil_r, E in R.
  injection R as _ R. apply app_eq_nil in R. tauto.
Qed.
