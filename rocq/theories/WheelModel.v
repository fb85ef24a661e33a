(** Model of the time wheel, /repo/src/time/timewheel.rs, with the slot map of the slotmap crate it stores its
    entries in. Each operation of the wheel is one step (the code reads the position and then locks a slot).
    Versions of the slot map are unbounded here, u32 in the crate. *)
From stdpp Require Export prelude gmap.
From Coq Require Export NArith.
Open Scope N_scope.

Section wheel.
  Context {E : Type}.

  (** ** slotmap::SlotMap<DefaultKey, E> *)
  (** A slot holds a value, and then its version is odd, or the index of the next free slot. *)
  Record slot := Slot { sl_ver : N; sl_body : E + nat }.
  Record smap := SMap { sm_slots : list slot; sm_free : nat }.
  Definition key : Type := nat * N.

  (** SlotMap::with_key: slot 0 is a sentinel. *)
  Definition sm_new : smap := SMap [Slot 0 (inr 0%nat)] 1.

  (** SlotMap::insert *)
  Definition sm_insert (m : smap) (e : E) : smap * key :=
    match sm_slots m !! sm_free m with
    | Some (Slot v body) =>
        let v' := N.lor v 1 in
        let next := match body with inr n => n | inl _ => 0%nat end in
        (SMap (<[sm_free m := Slot v' (inl e)]> (sm_slots m)) next, (sm_free m, v'))
    | None =>
        let i := length (sm_slots m) in
        (SMap (sm_slots m ++ [Slot 1 (inl e)]) (S i), (i, 1))
    end.

  (** SlotMap::remove *)
  Definition sm_remove (m : smap) (k : key) : smap :=
    match sm_slots m !! fst k with
    | Some (Slot v (inl _)) =>
        if N.eqb v (snd k) then SMap (<[fst k := Slot (v + 1) (inr (sm_free m))]> (sm_slots m)) (fst k) else m
    | _ => m
    end.

  (** The entries of a slot map, as its iterator gives them. *)
  Definition sm_entries (m : smap) : list (key * E) :=
    List.concat (imap (fun i s => match sl_body s with inl e => [((i, sl_ver s), e)] | inr _ => [] end) (sm_slots m)).

  (** ** TimeWheel *)
  Definition NUM_SLOTS : N := 256.                          (* timewheel.rs:6 *)
  Definition U64 : N := 18446744073709551616.

  (** timewheel.rs:8-12 TimerID *)
  Record timer_id := TimerID { id_key : key; id_slot : N }.

  (** timewheel.rs:14-19; an absent slot is None *)
  Record wheel := Wheel { w_current : N; w_slots : gmap N smap; w_duration : N (* ns *) }.

  (** timewheel.rs:23-31 *)
  Definition wheel_new (duration : N) : wheel := Wheel 0 ∅ duration.

  (** timewheel.rs:38-43 tick *)
  Definition tick (w : wheel) : wheel * list (key * E) :=
    let index := (w_current w + 1) mod NUM_SLOTS in
    (Wheel index (delete index (w_slots w)) (w_duration w),
     match w_slots w !! index with Some m => sm_entries m | None => [] end).

  (** timewheel.rs:50-51: the number of slots ahead, cast to u8 *)
  Definition steps_ahead (duration dur : N) : N := (((NUM_SLOTS * dur) mod U64) / duration) mod NUM_SLOTS.

  (** timewheel.rs:46-69 insert; None is the panic *)
  Definition insert (w : wheel) (dur : N) (e : E) : option (wheel * timer_id) :=
    if N.ltb (w_duration w) dur then None
    else
      let pos := (w_current w + steps_ahead (w_duration w) dur) mod NUM_SLOTS in
      let bucket := match w_slots w !! pos with Some m => m | None => sm_new end in
      let '(bucket', k) := sm_insert bucket e in
      Some (Wheel (w_current w) (<[pos := bucket']> (w_slots w)) (w_duration w), TimerID k pos).

  (** timewheel.rs:72-79 cancel *)
  Definition cancel (w : wheel) (id : timer_id) : wheel :=
    match w_slots w !! id_slot id with
    | Some m => Wheel (w_current w) (<[id_slot id := sm_remove m (id_key id)]> (w_slots w)) (w_duration w)
    | None => w
    end.

  (** Histories of operations and their results. *)
  Inductive op := OTick | OInsert (dur : N) (e : E) | OCancel (id : timer_id).
  Inductive result := RTick (fired : list (key * E)) | RInsert (id : timer_id) | RCancel.

  Definition wstep (w : wheel) (o : op) : option (wheel * result) :=
    match o with
    | OTick => let '(w', l) := tick w in Some (w', RTick l)
    | OInsert dur e => match insert w dur e with Some (w', id) => Some (w', RInsert id) | None => None end
    | OCancel id => Some (cancel w id, RCancel)
    end.

  Fixpoint wrun (w : wheel) (ops : list op) : option (wheel * list result) :=
    match ops with
    | [] => Some (w, [])
    | o :: ops =>
        match wstep w o with
        | None => None
        | Some (w1, r) => match wrun w1 ops with None => None | Some (w2, rs) => Some (w2, r :: rs) end
        end
    end.
End wheel.
Arguments slot : clear implicits.
Arguments smap : clear implicits.
Arguments wheel : clear implicits.
Arguments op : clear implicits.
Arguments result : clear implicits.
