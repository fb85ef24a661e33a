(** The average run time: C40. *)
From Verif Require Import RingSpec RingProofs SchedProofs SchedProps.
From Coq Require Import Lia.

(** C40: at any time until the final clean-up the reported average is the integer mean, in milliseconds, of the run times of
    the last 100 successful tasks (of all, if there were less), and 0 if there was none. *)
Theorem average_run_time : forall cfg s t, config_ok cfg -> reachable cfg s t -> st_phase s <> PDrained ->
  integer_mean (map whole_milliseconds (last_elements 100 (successful_run_times t)))
    (ring_mean (ring_of NUMBER_OF_RECENT_TASK_RUNTIMES_TO_AVERAGE (sv_recent (st_sv s)))).
Proof.
  intros cfg s t Hok Hr Hp. destruct (reach_full cfg s t Hok Hr) as [HF|(s0 & t0 & os & now & order & _ & _ & _ & _ & _ & _ & _ & Hd & _)]; [|done].
  assert (sv_recent (st_sv s) = successful_run_times t) as ->.
  { rewrite (s_recent _ _ _ (f_ts _ _ _ HF)). unfold run_times, successful_run_times. clear.
    induction t as [|o t IH]; [done|]. cbn [omap list_omap]. unfold list_omap, omap in *. cbn. 
    replace (run_time o) with (match o with OFinished _ (Code 0) e => e | _ => None end); [by rewrite IH|].
    destruct o; try done. unfold run_time. by match goal with x : exit_status |- _ => destruct x as [[]| |] end. }
  unfold ring_mean. rewrite ring_elems_last by done. fold (@last_elements N).
  change (last_n ?n ?l) with (last_elements n l). change NUMBER_OF_RECENT_TASK_RUNTIMES_TO_AVERAGE with 100.
  set (l := last_elements 100 (successful_run_times t)). clearbody l. cbv zeta. unfold integer_mean.
  destruct l as [|x l]; [done|]. cbn [map]. cbv zeta. change (fun x => (x / 1000000)%N) with whole_milliseconds.
  set (sum := fold_right N.add 0%N _). clearbody sum. cbn [length]. rewrite map_length.
  set (n := N.of_nat (S (length l))). assert (n <> 0%N) as Hn by (unfold n; lia). clearbody n.
  pose proof (N.div_mod sum n Hn) as Hd. pose proof (N.mod_lt sum n Hn) as Hm.
  generalize dependent (sum / n)%N. generalize dependent (sum mod n)%N. intros r Hr' q Hd. split; nia.
Qed.
Print Assumptions average_run_time.

(** A run with two successful tasks of 10 ns each; a ring of capacity 3 after five pushes. *)
Example average_demo : exists s, reachable demo s demo_trace /\ st_phase s <> PDrained /\
  successful_run_times demo_trace = [10; 10]%N.
Proof.
  eexists. split; [exists (removelast demo_acts); vm_compute; reflexivity|]. split; [discriminate|]. by vm_compute.
Qed.
Example ring_demo : ring_elems (ring_of 3 [1000000; 2000000; 3000000; 4000000; 6500000]%N) = [3000000; 4000000; 6500000]%N /\
  ring_mean (ring_of 3 [1000000; 2000000; 3000000; 4000000; 6500000]%N) = 4%N.
Proof. by vm_compute. Qed.
