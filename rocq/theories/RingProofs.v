From Verif Require Export RingModel.
From Coq Require Import Lia.

(** The last [n] elements. *)
Definition last_n {A} (n : nat) (l : list A) : list A := drop (length l - n) l.

Record ring_ok (cap : nat) (pushes : list N) (r : ring) : Prop := RingOk {
  ro_size : r_size r = cap;
  ro_len : length (r_buf r) = cap;
  ro_write : r_write r = length pushes;
  ro_read : r_read r = length pushes - cap;
  ro_val : forall i, r_read r <= i < r_write r -> nth (i mod cap) (r_buf r) 0%N = nth i pushes 0%N
}.

Lemma mod_eq_lt cap i j : cap <> 0 -> i mod cap = j mod cap -> i <= j < i + cap -> i = j.
Proof.
  intros Hc H [H1 H2]. pose proof (Nat.div_mod i cap Hc). pose proof (Nat.div_mod j cap Hc).
  assert (j / cap = i / cap) by nia. nia.
Qed.

Lemma ring_push_ok cap pushes r x : cap <> 0 -> ring_ok cap pushes r -> ring_ok cap (pushes ++ [x]) (ring_push r x).
Proof.
  intros Hc [H1 H2 H3 H4 H5]. unfold ring_push. rewrite H1, H3, H4.
  assert (length pushes mod cap < cap) as Hlt by (by apply Nat.mod_upper_bound).
  split; simpl; rewrite ?app_length, ?insert_length; simpl; try lia.
  - destruct (Nat.eqb_spec (length pushes - (length pushes - cap)) cap); lia.
  - intros i Hi.
    assert (length pushes + 1 - cap <= i < length pushes + 1) as Hi'.
    { destruct (Nat.eqb_spec (length pushes - (length pushes - cap)) cap); lia. }
    clear Hi. destruct (decide (i = length pushes)) as [->|Hne].
    + rewrite (nth_lookup (<[_:=_]> _)), list_lookup_insert by lia. rewrite app_nth2, Nat.sub_diag by lia. done.
    + rewrite app_nth1 by lia. rewrite <- H5 by lia. rewrite !nth_lookup, list_lookup_insert_ne; [done|].
      intros Heq. apply Hne. symmetry. symmetry. apply (mod_eq_lt cap); [done|done|lia].
Qed.

Lemma ring_of_ok cap pushes : cap <> 0 -> ring_ok cap pushes (ring_of cap pushes).
Proof.
  intros Hc. induction pushes as [|x l IH] using rev_ind.
  - split; simpl; try done; [by rewrite repeat_length|lia].
  - unfold ring_of. rewrite fold_left_app. by apply ring_push_ok.
Qed.

Lemma ring_elems_last cap pushes : cap <> 0 -> ring_elems (ring_of cap pushes) = last_n cap pushes.
Proof.
  intros Hc. destruct (ring_of_ok cap pushes Hc) as [H1 H2 H3 H4 H5]. unfold ring_elems, last_n. rewrite H1.
  apply list_eq. intros i. rewrite list_lookup_fmap, lookup_drop.
  destruct (decide (i < r_write (ring_of cap pushes) - r_read (ring_of cap pushes))) as [Hlt|Hge].
  - rewrite lookup_seq_lt by done. simpl. rewrite H5 by lia. rewrite H4.
    rewrite nth_lookup. destruct (pushes !! (length pushes - cap + i)) eqn:E; [done|].
    apply lookup_ge_None in E. lia.
  - rewrite lookup_seq_ge by lia. simpl. symmetry. apply lookup_ge_None. lia.
Qed.
