(** The time wheel: C29. *)
From Verif Require Import WheelProofs.
From Coq Require Import Lia.
Open Scope nat_scope.

(** C29: in every history of operations on a new wheel, an entry is returned by exactly the tick at which it is due,
    and if it was not cancelled before; no tick before its insertion returns it. *)
Theorem timer_fires_exactly : forall E d ops1 dur (e : E) ops2 w rs1 id rs2,
  wrun (wheel_new d) (ops1 ++ OInsert dur e :: ops2) = Some (w, rs1 ++ RInsert id :: rs2) -> length rs1 = length ops1 ->
  not_inserted e (ops1 ++ ops2) ->
  (forall l k, In (RTick l) rs1 -> ~ In (k, e) l) /\
  (forall a b ra rb l, ops2 = a ++ OTick :: b -> rs2 = ra ++ RTick l :: rb -> length ra = length a ->
     forall k, In (k, e) l <-> k = id_key id /\ ticks a + 1 = due d dur /\ ~ In (OCancel id) a).
Proof.
  intros E d ops1 dur e ops2 w rs1 id rs2 H1 H2 H3. destruct (timer_history d ops1 dur e ops2 w rs1 id rs2 H1 H2 H3) as (A & B & _). by split.
Qed.
Print Assumptions timer_fires_exactly.

(** C29: a tick returns an entry once. *)
Theorem timer_fires_once : forall E d (ops : list (op E)) w rs l,
  wrun (wheel_new d) ops = Some (w, rs) -> In (RTick l) rs -> List.NoDup (map fst l).
Proof.
  intros E d ops w rs l H1 H2. apply NoDup_ListNoDup. eapply tick_distinct; [|done|done].
  split; [done|]. intros i m H. simpl in H. by rewrite lookup_empty in H.
Qed.
Print Assumptions timer_fires_once.

(** C29: the id of an entry is not given out again before the entry is due, even if it was cancelled. So whoever
    cancels an id before its tick does not cancel another entry. *)
Theorem timer_ids_distinct : forall E d ops1 dur (e : E) ops2 w rs1 id rs2,
  wrun (wheel_new d) (ops1 ++ OInsert dur e :: ops2) = Some (w, rs1 ++ RInsert id :: rs2) -> length rs1 = length ops1 ->
  not_inserted e (ops1 ++ ops2) ->
  forall a b ra rb dur' x id', ops2 = a ++ OInsert dur' x :: b -> rs2 = ra ++ RInsert id' :: rb -> length ra = length a ->
    ticks a < due d dur -> id' <> id.
Proof.
  intros E d ops1 dur e ops2 w rs1 id rs2 H1 H2 H3. by destruct (timer_history d ops1 dur e ops2 w rs1 id rs2 H1 H2 H3) as (_ & _ & A).
Qed.
Print Assumptions timer_ids_distinct.

(** C29: the tick at which an entry is due, for durations of s slots. *)
Theorem timer_due : forall d dur s, (0 < d)%N -> (NUM_SLOTS * dur < U64)%N ->
  (N.of_nat s * d <= NUM_SLOTS * dur < N.of_nat (S s) * d)%N -> 1 <= s <= 255 -> due d dur = s.
Proof.
  intros d dur s Hd Hu Hs Hs'. unfold due, steps_ahead. rewrite (N.mod_small (_ * _) U64) by done.
  assert ((NUM_SLOTS * dur) / d = N.of_nat s)%N as ->.
  { symmetry. apply (N.div_unique _ _ _ (NUM_SLOTS * dur - N.of_nat s * d)%N); lia. }
  rewrite N.mod_small by (unfold NUM_SLOTS; lia). destruct (N.eqb_spec (N.of_nat s) 0); lia.
Qed.
Print Assumptions timer_due.

(** ** A history: 3 entries, one cancelled, the wheel turns more than once *)
Definition id1 : timer_id := TimerID (1, 1%N) 2.
Definition id2 : timer_id := TimerID (2, 1%N) 2.
Definition demo : list (op nat) :=
  [OTick] ++ OInsert 1000 7 :: [OInsert 1000 8; OCancel id2; OTick; OInsert 255000 9; OTick; OTick].
Example demo_run : exists w, wrun (wheel_new 256000) demo =
  Some (w, [RTick []] ++ RInsert id1 :: [RInsert id2; RCancel; RTick [((1, 1%N), 7)]; RInsert (TimerID (1, 1%N) 1); RTick []; RTick []]) /\
  not_inserted 7 ([OTick] ++ [OInsert 1000 8; OCancel id2; OTick; OInsert 255000 9; OTick; OTick]) /\ due 256000 1000 = 1 /\ due 256000 255000 = 255.
Proof.
  eexists. split; [vm_compute; reflexivity|]. split; [|done].
  intros dur H. simpl in H. repeat (destruct H as [H|H]; [discriminate|]). done.
Qed.

(** ** Where the words are not true *)
(** An id kept after its entry has fired can cancel another entry: the slot maps of two turns of the wheel give out
    the same keys. Here entry 8 is inserted for one slot after 256 ticks, and the id of entry 7, fired long ago, cancels it. *)
Theorem stale_id_refuted : exists id w rs,
  wrun (wheel_new 256000) ([OInsert 1000 7; OTick] ++ repeat OTick 255 ++ [OInsert 1000 8; OCancel id; OTick]) = Some (w, rs) /\
  rs !! 0 = Some (RInsert id) /\ rs !! 1 = Some (RTick [(id_key id, 7)]) /\
  rs !! 259 = Some (RTick []) /\ due 256000 1000 = 1.
Proof. exists (TimerID (1, 1%N) 1). eexists _, _. split; [vm_compute; reflexivity|]. by vm_compute. Qed.
Print Assumptions stale_id_refuted.

(** A duration shorter than a slot, and the whole duration of the wheel, fire after a whole turn, 256 ticks. *)
Theorem due_boundaries_refuted : due 256000 0 = 256 /\ due 256000 999 = 256 /\ due 256000 256000 = 256.
Proof. by vm_compute. Qed.
Print Assumptions due_boundaries_refuted.
