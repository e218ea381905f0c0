(** Properties C74, C128 - C130 of the socket connection. *)
From Verif Require Import Prelude SockModel SockSpec SockProofs.

(** C74 *)
Theorem C74_frames : forall n k evs stream buf, length buf = n -> Forall delivers evs -> k * n <= length evs -> k * n <= length stream ->
  exists evs', cycles k n evs stream buf = Done (map whole (frames k n stream), skipn (k * n) stream, evs').
Proof. exact cycles_frames. Qed.
Print Assumptions C74_frames.
(** For every behaviour of the network, time outs and errors included: whole frames first, then one torn frame, then zero. *)
Theorem C74_connection_partial : forall n ws evs stream buf pubs s, length buf = n -> connection n ws evs stream buf = Done (pubs, s) ->
  exists k m, k * n + m <= length stream /\ m <= n /\ s = skipn (k * n + m) stream /\
    pubs = map whole (frames k n stream) ++ [whole (firstn m (skipn (k * n) stream)) ++ skipn m (last (buf :: map whole (frames k n stream)) []); repeat (Some 0%Z) n].
Proof. exact connection_any. Qed.
Print Assumptions C74_connection_partial.
Theorem C74_zero_after_loss : forall n ws evs stream buf pubs s, connection n ws evs stream buf = Done (pubs, s) -> last pubs [] = repeat (Some 0%Z) n.
Proof. exact lost. Qed.
Print Assumptions C74_zero_after_loss.
(** On connection loss a mixture of two frames is published, or values never received. *)
Theorem C74_torn_frame_refuted : exists ws evs stream, connection 2 ws evs stream (fresh 2) = Done ([[Some 1; Some 2]; [Some 3; Some 2]; [Some 0; Some 0]]%Z, []) /\ stream = [1; 2; 3]%Z.
Proof. exact (ex_intro _ _ (ex_intro _ _ (ex_intro _ _ (conj torn eq_refl)))). Qed.
Print Assumptions C74_torn_frame_refuted.
Theorem C74_uninitialised_refuted : exists ws evs stream, connection 2 ws evs stream (fresh 2) = Done ([[Some 1; None]; [Some 0; Some 0]]%Z, [2%Z]).
Proof. exact (ex_intro _ _ (ex_intro _ _ (ex_intro _ _ torn_first))). Qed.
Print Assumptions C74_uninitialised_refuted.
Example C74_example : cycles 2 3 (map (fun s => {| ev_late := false; ev_answer := Got s |}) [1; 1; 9; 2; 1; 5]) [1; 2; 3; 4; 5; 6; 7]%Z (fresh 3) =
  Done ([[Some 1; Some 2; Some 3]; [Some 4; Some 5; Some 6]]%Z, [7%Z], [{| ev_late := false; ev_answer := Got 5 |}]).
Proof. reflexivity. Qed.

(** C128 *)
Theorem C128_end_to_end_partial : forall n fs evs, Forall (fun p => n <= fst p /\ length (snd p) = n) fs -> Forall delivers evs -> length fs * n <= length evs ->
  exists evs', cycles (length fs) n evs (send_frames fs) (fresh n) = Done (map whole (map snd fs), [], evs').
Proof. exact end_to_end. Qed.
Print Assumptions C128_end_to_end_partial.
(** A write that accepts only a part of the frame shifts all later frames. *)
Theorem C128_short_write_refuted : exists evs, Forall delivers evs /\
  cycles 1 2 evs (send_frames [(1, [1; 2]%Z); (2, [3; 4]%Z)]) (fresh 2) = Done ([[Some 1; Some 3]]%Z, [4%Z], [one_piece]).
Proof. exact (ex_intro _ [one_piece; one_piece] (conj pieces_deliver short_write)). Qed.
Print Assumptions C128_short_write_refuted.
Example C128_example : Forall (fun p => 2 <= fst p /\ length (snd p) = 2) [(2, [1; 2]%Z); (7, [3; 4]%Z)].
Proof. repeat constructor. Qed.

(** C129 *)
Theorem C129_silent_peer_refuted : exists stream buf pos count, 0 < count /\ read_loop [] stream buf pos count true = Blocked.
Proof. exact (ex_intro _ [] (ex_intro _ (fresh 1) (ex_intro _ 0 (ex_intro _ 1 (conj (le_n 1) eq_refl))))). Qed.
Print Assumptions C129_silent_peer_refuted.
Theorem C129_late_read_partial : forall e evs stream buf pos count, 0 < count -> ev_late e = true ->
  exists b s e', read_loop (e :: evs) stream buf pos count true = Done (b, s, e', false).
Proof. exact late_ends. Qed.
Print Assumptions C129_late_read_partial.
Theorem C129_cleared_partial : forall n ws evs stream buf pubs s, connection n ws evs stream buf = Done (pubs, s) ->
  exists l b, pubs = l ++ [b; repeat (Some 0%Z) n].
Proof. exact ends_cleared. Qed.
Print Assumptions C129_cleared_partial.
Example C129_cleared_example : connection 1 [true; true] [{| ev_late := false; ev_answer := Got 1 |}; {| ev_late := true; ev_answer := Closed |}] [7%Z] (fresh 1) = Done ([[Some 7%Z]; [Some 7%Z]; [Some 0%Z]], []).
Proof. reflexivity. Qed.
Example C129_example : read_loop [{| ev_late := false; ev_answer := Closed |}; {| ev_late := true; ev_answer := Closed |}] [] (fresh 1) 0 1 true = Done ([None], [], [], false).
Proof. reflexivity. Qed.

(** C130 *)
Theorem C130_torn_output_refuted : exists sched rx new out, length sched = 3 /\ copy_race sched rx new [] 0 0 = out /\ out <> rx /\ out <> new.
Proof.
  exact (ex_intro _ [false; true; true] (ex_intro _ [1; 2]%Z (ex_intro _ [3; 4]%Z (ex_intro _ [3; 2]%Z (conj eq_refl (conj eq_refl (conj torn_ne1 torn_ne2))))))).
Qed.
Print Assumptions C130_torn_output_refuted.
Theorem C130_quiet_partial : forall rx new, copy_race (repeat true (length rx)) rx new [] 0 0 = rx.
Proof. exact copy_ok. Qed.
Print Assumptions C130_quiet_partial.
Example C130_example : copy_race [true; true] [1; 2]%Z [3; 4]%Z [] 0 0 = [1; 2]%Z.
Proof. reflexivity. Qed.
