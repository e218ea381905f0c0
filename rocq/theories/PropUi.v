(** Properties C157 and C158: commands for the sequencer by network, shared memory. *)
From Coq Require Import Ascii.
From Verif Require Import Prelude UiModel UiSpec UiProofs.
Open Scope nat_scope.

(** C157: every command received from a client is executed once, and nothing else is executed. *)
Theorem C157_refuted : exists calls, arrived calls = ["s"%char] /\ ui_client calls = Ok (["s"; "s"]%char, true).
Proof. exists [{| late := false; res := RChar "s" |}; {| late := false; res := RErr |}]. split; reflexivity. Qed.
Print Assumptions C157_refuted.
Theorem C157_uninitialised_refuted : exists calls, calls <> [] /\ ui_client calls = UB.
Proof. exists [{| late := false; res := RErr |}]. split; [discriminate|reflexivity]. Qed.
Print Assumptions C157_uninitialised_refuted.
(** While the client is connected. *)
Theorem C157_connected_partial : forall calls, ending calls = None -> ui_client calls = Ok (arrived calls, false).
Proof. exact ui_connected. Qed.
Print Assumptions C157_connected_partial.
(** Whenever the connection ends without a character, the last command is executed once more. *)
Theorem C157_disconnect_partial : forall calls x pre, ending calls = Some false -> arrived calls = pre ++ [x] -> ui_client calls = Ok (arrived calls ++ [x], true).
Proof. exact ui_repeats. Qed.
Print Assumptions C157_disconnect_partial.
Theorem C157_silent_client_partial : forall calls, ending calls = Some false -> arrived calls = [] -> ui_client calls = UB.
Proof. exact ui_uninit. Qed.
Print Assumptions C157_silent_client_partial.
(** The characters and what they do. *)
Theorem C157_commands_partial : forall c, decode c = commands_of c.
Proof. exact decode_commands. Qed.
Print Assumptions C157_commands_partial.
Example C157_example : ui_client [{| late := false; res := RChar "b" |}; {| late := false; res := REof |}; {| late := false; res := RChar "c" |}] = Ok (["b"; "c"]%char, false).
Proof. reflexivity. Qed.

(** C158: after the destruction of a SharedMemory object its memory and its descriptor are released. *)
Theorem C158_descriptor_refuted : exists s, s = shm_destroy (shm_construct true) /\ sh_fds s <> [].
Proof. exact (ex_intro _ _ (conj eq_refl shm_fd_leak)). Qed.
Print Assumptions C158_descriptor_refuted.
Theorem C158_mapping_refuted : exists s, s = shm_destroy (shm_initialize true (shm_construct true)) /\ sh_maps s <> [].
Proof. exact (ex_intro _ _ (conj eq_refl shm_map_leak)). Qed.
Print Assumptions C158_mapping_refuted.
Theorem C158_mapping_partial : forall ok, sh_maps (shm_destroy (shm_construct ok)) = [].
Proof. exact shm_maps_once. Qed.
Print Assumptions C158_mapping_partial.
Example C158_example : sh_maps (shm_construct true) = [1].
Proof. reflexivity. Qed.
