(** Property theorems: small parts (C175 to C183). *)
From Coq Require Import String Reals Lra Floats.SpecFloat.
From Verif Require Import Prelude Num SeqModel HalModel MiscModel MiscSpec MiscProofs.
Import List ListNotations.
Open Scope Z_scope.

(** C175: a wait step ends at the first check after its waiting time. *)
Theorem C175_not_a_number_refuted : exists w, forall st polls, wait_ends Dnum w st polls = None.
Proof. exists dnan. exact wait_nan. Qed.
Print Assumptions C175_not_a_number_refuted.
Theorem C175_wait_partial : forall (w st : R) (polls : list R) k, wait_ends Rnum w st polls = Some k <->
  (exists t, nth_error polls k = Some t /\ w < t - st)%R /\
  (forall j t, (j < k)%nat -> nth_error polls j = Some t -> (t - st <= w)%R).
Proof. exact wait_ends_R. Qed.
Print Assumptions C175_wait_partial.
Example C175_example : wait_ends Dnum (dofZ 2) (dofZ 10) [dofZ 11; dofZ 12; dofZ 13; dofZ 14] = Some 2%nat.
Proof. vm_compute. reflexivity. Qed.

(** C176: the default value of a constant of an integer type is the smallest value of the type. *)
Theorem C176_other_types_refuted : exists t u v, constant_default t <> least t /\ constant_default u <> least u /\ constant_default v <> least v /\
  t = ISigned 16 /\ u = ISigned 64 /\ v = IBool.
Proof. exists (ISigned 16), (ISigned 64), IBool. repeat split; vm_compute; discriminate. Qed.
Print Assumptions C176_other_types_refuted.
Theorem C176_int32_partial : constant_default (ISigned 32) = least (ISigned 32).
Proof. exact const_32. Qed.
Print Assumptions C176_int32_partial.
Theorem C176_default_partial : forall t, 0 <= int_bits t -> constant_default t = default_value t.
Proof. exact const_values. Qed.
Print Assumptions C176_default_partial.
Example C176_example : constant_default (ISigned 16) = 0 /\ constant_default IBool = 1 /\ constant_default (IUnsigned 32) = 2147483648.
Proof. vm_compute. auto. Qed.

(** C177: after set(v) the pin has level v. *)
Theorem C177_buffered_refuted : exists s v, so_pin (so_set 8191 false s v) <> v.
Proof. exists {| so_buf := []; so_pin := false |}, true. cbn. discriminate. Qed.
Print Assumptions C177_buffered_refuted.
Theorem C177_uninitialised_refuted : exists inv s v, so_pin (so_close (so_set 8191 inv s v)) <> v.
Proof. exists true, {| so_buf := []; so_pin := false |}, true. vm_compute. discriminate. Qed.
Print Assumptions C177_uninitialised_refuted.
(** When the output is destroyed the pin takes the last level. *)
Theorem C177_destroyed_partial : forall cap vs v s, so_pin (so_close (fold_left (so_set cap false) (vs ++ [v]) s)) = v.
Proof. exact so_closed. Qed.
Print Assumptions C177_destroyed_partial.
(** Until then it has the last level of the buffers written out. *)
Theorem C177_written_partial : forall cap p0 vs, (0 < cap)%nat ->
  so_pin (fold_left (so_set cap false) vs {| so_buf := []; so_pin := p0 |}) = last (firstn (written_out cap (length vs)) vs) p0.
Proof. exact (fun cap p0 vs H => proj1 (so_written cap p0 vs H)). Qed.
Print Assumptions C177_written_partial.
Example C177_example : so_pin (fold_left (so_set 8 false) [true; true] {| so_buf := []; so_pin := false |}) = false.
Proof. reflexivity. Qed.

(** C178: the syslog gets exactly the visible messages, each with the priority of its level. *)
Theorem C178_threads_refuted : exists (w : syslogw nat) es, es = [SBegin ERROR; SBegin TRACE; SEnd 1%nat; SEnd 2%nat] /\
  sw_visible w = INFO /\ sw_written (sw_run w es) = sw_written w.
Proof.
  exists {| sw_level := FATAL; sw_enabled := false; sw_visible := INFO; sw_written := [] |}, [SBegin ERROR; SBegin TRACE; SEnd 1%nat; SEnd 2%nat].
  repeat split.
Qed.
Print Assumptions C178_threads_refuted.
Theorem C178_one_thread_partial : forall (M : Type) (ms : list (level * M)) w,
  sw_written (sw_run w (flat_map (fun m => [SBegin (fst m); SEnd (snd m)]) ms)) = sw_written w ++ wanted (sw_visible w) ms.
Proof. exact sw_seq. Qed.
Print Assumptions C178_one_thread_partial.
(** More severe levels have more severe priorities. *)
Theorem C178_priorities_partial : forall a b, rank a < rank b <-> priority a < priority b.
Proof. exact priority_mono. Qed.
Print Assumptions C178_priorities_partial.
Example C178_example : wanted INFO [(ERROR, 1); (TRACE, 2); (WARN, 3)] = [(3, 1); (4, 3)].
Proof. reflexivity. Qed.

(** C179: a peripheral block which cannot be constructed claims nothing. *)
Theorem C179_wrong_type_refuted : exists Ob s n, snd (periph Ob RLogic n true s) = Exc /\
  ~ same_claims (fst (periph Ob RLogic n true s)) s.
Proof.
  exists {| id_of := fun _ => "a"%string; kind_of := fun _ => Scalable |},
         {| tbl := fun m => if String.eqb m "a" then Some (Some 0%nat) else None; excl := fun _ => false; shared := fun _ => false |}, "a"%string.
  split; [reflexivity|]. intros H. destruct (H (Some 0%nat)) as [X _]. discriminate X.
Qed.
Print Assumptions C179_wrong_type_refuted.
Theorem C179_unknown_name_refuted : exists Ob s n, tbl s n = None /\ snd (periph Ob RLogic n true s) = Exc /\
  ~ same_claims (fst (periph Ob RLogic n true s)) s.
Proof.
  exists {| id_of := fun _ => "a"%string; kind_of := fun _ => Scalable |}, side0, "b"%string.
  split; [reflexivity|]. split; [reflexivity|]. intros H. destruct (H None) as [X _]. discriminate X.
Qed.
Print Assumptions C179_unknown_name_refuted.
(** When the HAL refuses the claim, nothing is claimed. *)
Theorem C179_refused_partial : forall Ob w n e s, snd (do_get Ob RAny n e s) = Exc ->
  snd (periph Ob w n e s) = Exc /\ same_claims (fst (periph Ob w n e s)) s.
Proof. exact periph_refused. Qed.
Print Assumptions C179_refused_partial.
(** A constructed block has claimed a signal of its type. *)
Theorem C179_constructed_partial : forall Ob w n e s p, snd (periph Ob w n e s) = Ret p ->
  exists a, p = Some a /\ casts Ob w p = true /\ tbl s n = Some p /\
    (if e then excl (fst (periph Ob w n e s)) p = true else shared (fst (periph Ob w n e s)) p = true).
Proof. exact periph_ok. Qed.
Print Assumptions C179_constructed_partial.
Example C179_example : let Ob := {| id_of := fun _ => "a"%string; kind_of := fun _ => Logic |} in
  let s := fst (do_add Ob (Some 3%nat) side0) in snd (periph Ob RLogic "a" true s) = Ret (Some 3%nat).
Proof. reflexivity. Qed.

(** C180: after a peripheral block was destroyed its signal can be used by another one. *)
Theorem C180_claim_stays_refuted : exists Ob s n p, snd (periph Ob RLogic n true s) = Ret p /\
  forall w e, snd (periph Ob w n e (fst (periph Ob RLogic n true s))) = Exc.
Proof.
  exists {| id_of := fun _ => "a"%string; kind_of := fun _ => Logic |},
         {| tbl := fun m => if String.eqb m "a" then Some (Some 0%nat) else None; excl := fun _ => false; shared := fun _ => false |}, "a"%string, (Some 0%nat).
  split; [reflexivity|]. intros w e. apply (periph_again _ RLogic w "a" e _ (Some 0%nat)). reflexivity.
Qed.
Print Assumptions C180_claim_stays_refuted.

(** C181: a signal sent with a publisher block arrives unchanged at a subscriber block. *)
Theorem C181_short_message_refuted : exists (val : list Z) n, sub_vec n val = UB.
Proof. exists [1], 2%nat. reflexivity. Qed.
Print Assumptions C181_short_message_refuted.
Theorem C181_same_size_partial : forall (A : Type) (sig : list A), sub_vec (length sig) (pub_vec sig) = Ok sig.
Proof. exact pub_sub. Qed.
Print Assumptions C181_same_size_partial.
(** The first elements arrive when the message is longer; every shorter message is undefined behaviour. *)
Theorem C181_prefix_partial : forall (A : Type) n (val : list A), (n <= length val)%nat -> sub_vec n val = Ok (firstn n val).
Proof. exact sub_vec_ok. Qed.
Print Assumptions C181_prefix_partial.
Example C181_example : sub_vec 2 [1; 2; 3] = Ok [1; 2].
Proof. reflexivity. Qed.

(** C182: laser scans are published and received with all fields. *)
Theorem C182_intensities_refuted : exists (r i : list Z), r <> i /\ forall rv, snd (fst (pub_scan rv (Some r) (Some i))) = Some r.
Proof. exists [1], [2]. split; [discriminate|reflexivity]. Qed.
Print Assumptions C182_intensities_refuted.
Theorem C182_stamps_refuted : exists old, length old = 9%nat /\ forall time, skipn 7 (sub_scan_stamps old time) = skipn 7 old.
Proof. exists (repeat 0 9). split; [reflexivity|]. intros time. reflexivity. Qed.
Print Assumptions C182_stamps_refuted.
Theorem C182_ranges_partial : forall (A : Type) (rv r : list A) i, fst (fst (pub_scan rv (Some r) i)) = Some r.
Proof. exact (fun A rv r i => eq_refl). Qed.
Print Assumptions C182_ranges_partial.
Example C182_example : pub_scan [0] (Some [1]) (Some [2]) = (Some [1], Some [1], [1]).
Proof. reflexivity. Qed.

(** C183: the safety level publisher is defined from the start. *)
Theorem C183_no_safety_system_refuted : exists p : option Z, pub_level p = UB.
Proof. exists None. reflexivity. Qed.
Print Assumptions C183_no_safety_system_refuted.
Theorem C183_level_partial : forall (A : Type) (l : A), pub_level (Some l) = Ok l.
Proof. exact (fun A l => eq_refl). Qed.
Print Assumptions C183_level_partial.
