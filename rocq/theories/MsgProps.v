(** C45: messages between the server and the remote runners survive encoding and transport. *)
From Verif Require Import MsgProofs.
From Coq Require Import Lia.
From stdpp Require Import prelude.
Open Scope N_scope.

(** Every message is read back as it was written, in whatever order its maps were written. *)
Theorem message_survives k (m : message k) b :
  typed k m -> encodes k m b -> decode k b = Some m.
Proof. apply decode_encoded. Qed.
Print Assumptions message_survives.

(** A message cut short anywhere is refused. *)
Theorem cut_message_refused k (m : message k) p q :
  typed k m -> encodes k m (p ++ q) -> q <> [] -> decode k p = None.
Proof. apply decode_prefix. Qed.
Print Assumptions cut_message_refused.

(** No two messages are written alike, and none is the beginning of another. *)
Theorem messages_distinct k (m1 m2 : message k) b1 b2 rest :
  typed k m1 -> typed k m2 -> encodes k m1 b1 -> encodes k m2 b2 -> b2 = b1 ++ rest -> m1 = m2 /\ rest = [].
Proof.
  intros T1 T2 E1 E2 ->. pose proof (decode_app k m1 b1 rest T1 E1) as D1.
  rewrite (decode_encoded k m2 _ T2 E2) in D1. injection D1 as ->. split; [done|].
  destruct (decide (rest = [])) as [|Hne]; [done|]. exfalso.
  pose proof (decode_prefix k m1 b1 rest T2 E2 Hne) as D. by rewrite (decode_encoded k m1 b1 T1 E1) in D.
Qed.
Print Assumptions messages_distinct.

(** A request of a runner arrives at the server as it was sent, compressed or not, if its body is at most 2 MiB. *)
Theorem request_survives compress decompress from_json k (m : message k) b p :
  lz4 compress decompress -> typed k m -> encodes k m b ->
  send_request compress b = Some p -> N.of_nat (length (p_body p)) <= 2 ^ 21 ->
  server_receives decompress from_json k p = inl m.
Proof.
  intros Hz Ht He Hs Hl. unfold server_receives, BODY_LIMIT. change 2097152 with (2 ^ 21).
  rewrite (proj2 (N.ltb_ge _ _) Hl). unfold send_request in Hs. destruct (N.ltb _ _).
  - destruct (compress b) as [c|] eqn:Hc; [|done]. injection Hs as <-. unfold receive. cbn.
    destruct (Hz b c Hc) as [-> _]. by rewrite (decode_encoded k m b Ht He).
  - injection Hs as <-. unfold receive. cbn. by rewrite (decode_encoded k m b Ht He).
Qed.
Print Assumptions request_survives.

(** A response of the server arrives at the runner as it was sent, compressed or not, whatever its size. *)
Theorem response_survives compress decompress from_json k (m : message k) b p :
  lz4 compress decompress -> typed k m -> encodes k m b ->
  send_response compress b = Some p -> runner_receives decompress from_json k p = inl m.
Proof.
  intros Hz Ht He Hs. unfold send_response in Hs. destruct (N.ltb _ _).
  - injection Hs as <-. unfold runner_receives, receive. cbn. by rewrite (decode_encoded k m b Ht He).
  - destruct (compress b) as [c|] eqn:Hc; [|done]. injection Hs as <-. unfold runner_receives, receive. cbn.
    destruct (Hz b c Hc) as [-> _]. by rewrite (decode_encoded k m b Ht He).
Qed.
Print Assumptions response_survives.

(** Sending fails only where the compression fails, and never for a message of at most 127 bytes. *)
Theorem sending_succeeds compress b :
  (exists c, compress b = Some c) \/ N.of_nat (length b) <= 127 ->
  (exists p, send_request compress b = Some p) /\ (exists p, send_response compress b = Some p).
Proof.
  unfold send_request, send_response, SMALL_REQUEST_SIZE_NO_COMPRESSION.
  intros [[c ->]|H].
  - split; destruct (N.ltb _ _); eauto.
  - rewrite (proj2 (N.ltb_ge 128 _)) by lia. rewrite (proj2 (N.ltb_lt _ 128)) by lia. eauto.
Qed.
Print Assumptions sending_succeeds.

(** A request or response cut short on its way is refused, compressed or not. *)
Theorem cut_packet_refused compress decompress from_json k (m : message k) b p p' :
  lz4 compress decompress -> typed k m -> encodes k m b ->
  send_request compress b = Some p \/ send_response compress b = Some p -> cut p p' ->
  (exists e, server_receives decompress from_json k p' = inr e) /\ (exists e, runner_receives decompress from_json k p' = inr e).
Proof.
  intros Hz Ht He Hs (Hty & Hen & q & Hq & Hb).
  assert (exists e, receive decompress from_json k p' = inr e) as [e Hr].
  { assert ((exists c, compress b = Some c /\ p = Packet (Some "application/postcard"%string) (Some "lz4"%string) c)
      \/ p = Packet (Some "application/postcard"%string) None b) as [(c & Hc & ->)| ->].
    { unfold send_request, send_response in Hs. destruct Hs as [Hs|Hs]; destruct (N.ltb _ _); try (injection Hs as <-; by right).
      - destruct (compress b) as [c|] eqn:Hc; [|done]. injection Hs as <-. left. eauto.
      - destruct (compress b) as [c|] eqn:Hc; [|done]. injection Hs as <-. left. eauto. }
    - cbn in Hty, Hen, Hb. unfold receive, get_compression, get_content_type. rewrite Hen. cbn.
      destruct (Hz b c Hc) as [_ Hcut]. rewrite (Hcut _ _ Hb Hq). eauto.
    - cbn in Hty, Hen, Hb. unfold receive, get_compression, get_content_type. rewrite Hen, Hty. cbn.
      rewrite (decode_prefix k m (p_body p') q Ht); [eauto| |done]. by rewrite <- Hb. }
  split; [|exists e; exact Hr]. unfold server_receives. destruct (N.ltb _ _); eauto.
Qed.
Print Assumptions cut_packet_refused.

(** What the server takes for a message was labelled postcard or JSON and was not labelled with an unknown compression. *)
Theorem unlabelled_packet_refused decompress from_json k p (m : message k) :
  server_receives decompress from_json k p = inl m \/ runner_receives decompress from_json k p = inl m ->
  (p_type p = Some "application/postcard"%string \/ p_type p = Some "application/json"%string)
  /\ (p_encoding p = None \/ p_encoding p = Some "lz4"%string).
Proof.
  intros H. assert (receive decompress from_json k p = inl m) as Hr.
  { destruct H as [H|H]; [|exact H]. unfold server_receives in H. by destruct (N.ltb _ _). }
  clear H. unfold receive, get_compression, get_content_type in Hr. split.
  - destruct (p_type p) as [t|].
    + destruct (String.eqb_spec t "application/postcard") as [e|_]; [left; by rewrite e|].
      destruct (String.eqb_spec t "application/json") as [e|_]; [right; by rewrite e|].
      destruct (p_encoding p) as [x|]; [destruct (String.eqb _ _); [destruct (decompress _)|]|]; done.
    + destruct (p_encoding p) as [x|]; [destruct (String.eqb _ _); [destruct (decompress _)|]|]; done.
  - destruct (p_encoding p) as [x|]; [|by left]. destruct (String.eqb_spec x "lz4") as [e|_]; [right; by rewrite e|done].
Qed.
Print Assumptions unlabelled_packet_refused.

(** ** The limit on requests *)
(** A compression that does not shrink its input, as LZ4 does with incompressible data. *)
Definition stored (b : bytes) : option bytes := if N.ltb (N.of_nat (length b)) (2 ^ 64) then Some (put_u8s b) else None.
Definition unstored (c : bytes) : option bytes := match get_u8s c with Some (b, []) => Some b | _ => None end.
Lemma stored_lz4 : lz4 stored unstored.
Proof.
  intros b c. unfold stored. destruct (N.ltb_spec (N.of_nat (length b)) (2 ^ 64)) as [Hb|]; [|done]. intros [= <-].
  pose proof (get_put_u8s b Hb []) as R. rewrite app_nil_r in R. unfold unstored. split; [by rewrite R|].
  intros p q Hpq Hq. destruct (get_u8s p) as [[x t]|] eqn:E; [|done]. apply (extends_u8s _ _ _ q) in E.
  rewrite <- Hpq, R in E. injection E as _ E. symmetry in E. apply app_eq_nil in E. tauto.
Qed.
Lemma put_u8s_length b : (length b <= length (put_u8s b))%nat.
Proof.
  unfold put_u8s, put_seq. rewrite app_length.
  match goal with |- (_ <= _ + ?x)%nat => assert (length b = x) as H; [|rewrite <- H; lia] end.
  induction b as [|c b IH]; [done|]. cbn. by rewrite <- IH.
Qed.
Lemma utf8_replicate n : utf8_valid (replicate n "a"%char) = true.
Proof. induction n; [done|exact IHn]. Qed.
Lemma bytes_text_length b : String.length (bytes_text b) = length b.
Proof. by rewrite <- text_bytes_length, text_bytes_text. Qed.

Lemma long_text n : exists s, utf8_valid (text_bytes s) = true /\ N.of_nat (String.length s) = n.
Proof.
  exists (bytes_text (replicate (N.to_nat n) "a"%char)). split; [rewrite text_bytes_text; apply utf8_replicate|].
  rewrite bytes_text_length, replicate_length. apply N2Nat.id.
Qed.

(** Without the limit the claim for requests is false: the report of a task with more than 2 MiB of output that does
    not compress is refused by the server, however it reads JSON. *)
Theorem every_request_survives_refuted :
  exists compress decompress (m : end_request) b p,
    lz4 compress decompress /\ typed KEndRequest m /\ encodes KEndRequest m b /\ send_request compress b = Some p
    /\ forall from_json, server_receives decompress from_json KEndRequest p = inr BytesRejection.
Proof.
  destruct (long_text 3000000) as (out & Hu & Hlen).
  set (m := EndRequest 7 0 out "" [] None).
  set (b := put_end_request m []).
  assert (Ht : typed KEndRequest m).
  { split; [done|]. split; [done|]. split; [|split; [done|split; [done|split; [by constructor|done]]]].
    split; [exact Hu|]. cbn [eq_stdout m]. rewrite Hlen. done. }
  assert (Hb : exists x y, b = x ++ text_bytes out ++ y /\ N.of_nat (length x) <= 100 /\ N.of_nat (length y) <= 100).
  { exists (put_u32 7 ++ put_i32 0 ++ put_u64 3000000), (put_str "" ++ put_seq put_pairs [] ++ put_option put_start_request None).
    split; [|split; vm_compute; discriminate]. unfold b, put_end_request. cbn [eq_tx eq_status eq_stdout eq_stderr eq_start m].
    unfold put_str at 1. rewrite Hlen. by rewrite <- !List.app_assoc. }
  assert (Hbl : 3000000 <= N.of_nat (length b) < 2 ^ 64).
  { destruct Hb as (x & y & -> & Hx & Hy). rewrite !app_length, text_bytes_length. lia. }
  exists stored, unstored, m, b, (Packet (Some "application/postcard"%string) (Some "lz4"%string) (put_u8s b)).
  split; [apply stored_lz4|]. split; [exact Ht|]. split; [exists []; split; [constructor|reflexivity]|]. split.
  - unfold send_request, stored. rewrite (proj2 (N.ltb_lt SMALL_REQUEST_SIZE_NO_COMPRESSION _)) by (unfold SMALL_REQUEST_SIZE_NO_COMPRESSION; lia).
    rewrite (proj2 (N.ltb_lt _ (2 ^ 64))) by lia. done.
  - intros from_json. unfold server_receives. cbn [p_body]. rewrite (proj2 (N.ltb_lt BODY_LIMIT _)); [done|].
    pose proof (put_u8s_length b). unfold BODY_LIMIT. lia.
Qed.
Print Assumptions every_request_survives_refuted.

(** ** Cases *)
Definition demo_end : end_request :=
  EndRequest 4000000000 (-15) "out" "err" [{["a" := "1"; "b" := "2"]}; ∅]%string (Some (StartRequest 3 "lost")).
Definition demo_bytes : bytes := put_end_request demo_end [[("b", "2"); ("a", "1")]; []]%string.
Lemma demo_typed : typed KEndRequest demo_end.
Proof.
  split; [reflexivity|]. split; [cbn; unfold is_i32; lia|]. do 3 (split; [split; reflexivity|| reflexivity|]).
  split; [|split; [reflexivity|split; reflexivity]]. constructor; [|constructor; [split; [reflexivity|apply map_Forall_empty]|constructor]].
  split; [reflexivity|]. apply map_Forall_insert_2; [split; split; reflexivity|]. apply map_Forall_singleton. split; split; reflexivity.
Qed.
Lemma demo_encodes : encodes KEndRequest demo_end demo_bytes.
Proof.
  exists [[("b", "2"); ("a", "1")]; []]%string. split; [|reflexivity].
  repeat constructor; apply (bool_decide_eq_true_1 _); vm_compute; reflexivity.
Qed.
Example demo45_message : decode KEndRequest demo_bytes = Some demo_end /\ decode KEndRequest (take 20 demo_bytes) = None.
Proof.
  split; [exact (message_survives _ _ _ demo_typed demo_encodes)|].
  refine (cut_message_refused KEndRequest demo_end (take 20 demo_bytes) (drop 20 demo_bytes) demo_typed _ _).
  - rewrite take_drop. exact demo_encodes.
  - vm_compute. discriminate.
Qed.
(** The two encodings of the same message, and what is written for -15 and 4000000000. *)
Example demo45_bytes :
  take 6 demo_bytes = map ascii_of_N [128; 208; 172; 243; 14; 29]
  /\ demo_bytes <> put_end_request demo_end [[("a", "1"); ("b", "2")]; []]%string.
Proof. split; [reflexivity|]. vm_compute. discriminate. Qed.
(** A response with a command line that is not UTF-8 and an input, long enough to be compressed. *)
Definition demo_start : start_response :=
  StartResponse 5 [[ascii_of_N 255]; replicate 200 "x"%char] (Some (4%Z, [ascii_of_N 0])) 15000.
Example demo45_transport from_json :
  typed KStartResponse demo_start
  /\ exists p, send_response stored (put_start_response demo_start) = Some p /\ p_encoding p = Some "lz4"%string
     /\ runner_receives unstored from_json KStartResponse p = inl demo_start.
Proof.
  assert (Ht : typed KStartResponse demo_start) by (repeat split; try reflexivity; try (cbn; lia); repeat constructor).
  split; [exact Ht|]. eexists. split; [vm_compute; reflexivity|]. split; [reflexivity|].
  apply (response_survives stored unstored from_json KStartResponse demo_start (put_start_response demo_start));
    [apply stored_lz4|exact Ht|reflexivity|vm_compute; reflexivity].
Qed.
(** At 128 bytes a request is sent as it is and a response is compressed. *)
Example demo45_boundary :
  option_map p_encoding (send_request stored (replicate 128 "x"%char)) = Some None
  /\ option_map p_encoding (send_response stored (replicate 128 "x"%char)) = Some (Some "lz4"%string).
Proof. split; reflexivity. Qed.
