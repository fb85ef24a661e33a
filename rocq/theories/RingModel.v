(** Model of /repo/src/simpleringbuffer.rs, with the ring buffer of the ringbuffer crate. *)
From stdpp Require Export prelude.
From Coq Require Export NArith.
Open Scope nat_scope.

(** ringbuffer::AllocRingBuffer: a buffer of fixed size and two positions that only increase (usize; unbounded here)
    (simpleringbuffer.rs:6). *)
Record ring := Ring { r_buf : list N; r_size : nat; r_read : nat; r_write : nat }.

(** simpleringbuffer.rs:10-19 new *)
Definition ring_new (capacity : nat) : ring := Ring (repeat 0%N capacity) capacity 0 0.

(** AllocRingBuffer::push: overwrites the oldest element when full (simpleringbuffer.rs:21-24). *)
Definition ring_push (r : ring) (value : N) : ring :=
  let full := Nat.eqb (r_write r - r_read r) (r_size r) in
  Ring (<[(r_write r) mod (r_size r) := value]> (r_buf r)) (r_size r)
       (if full then S (r_read r) else r_read r) (S (r_write r)).

(** AllocRingBuffer::iter: from the oldest to the newest (simpleringbuffer.rs:44). *)
Definition ring_elems (r : ring) : list N :=
  map (fun i => nth (i mod (r_size r)) (r_buf r) 0%N) (seq (r_read r) (r_write r - r_read r)).

(** simpleringbuffer.rs:38-47 mean, in milliseconds; the elements are in nanoseconds. The sum is u64 in the code; it
    does not overflow within 580 thousand years of run time. *)
Definition ring_mean (r : ring) : N :=
  let l := ring_elems r in
  let sum := fold_right N.add 0%N (map (fun x => (x / 1000000)%N) l) in
  match l with [] => 0%N | _ => (sum / N.of_nat (length l))%N end.

(** sync.rs:143 *)
Definition NUMBER_OF_RECENT_TASK_RUNTIMES_TO_AVERAGE : nat := 100.

(** The buffer after some pushes (sync.rs:164 and 420). *)
Definition ring_of (capacity : nat) (pushes : list N) : ring := fold_left ring_push pushes (ring_new capacity).
