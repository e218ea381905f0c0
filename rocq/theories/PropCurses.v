(** Properties C207 to C213: the text user interface of the sequencer. *)
From Coq Require Import List ZArith Lia Bool.
From Verif Require Import Prelude CursesModel CursesSpec CursesProofs.
Import ListNotations.
Open Scope Z_scope.

(** C207: Once it is displayed and until [exit] is called the interface reads
    keys. *)
Theorem C207_reads_keys_refuted : exists es,
  In EDisplay es /\ ~ In EExit es /\
  ui_at (ui_run ui_new es) = PEnd /\ ui_read (ui_run ui_new es) = 0%nat.
Proof.
  exists [EBuilt; EThread; EDisplay; EThread; EThread; EThread].
  split; [right; right; left; reflexivity|].
  split; [|split; reflexivity].
  cbn; intuition discriminate.
Qed.
Print Assumptions C207_reads_keys_refuted.
(** Whatever the schedule: without [exit] no key is ever read, *)
Theorem C207_never_reads_partial : forall es, ~ In EExit es ->
  ui_read (ui_run ui_new es) = 0%nat.
Proof. exact never_reads. Qed.
Print Assumptions C207_never_reads_partial.
(** and four steps of the thread after [dispay] the thread has ended. *)
Theorem C207_ends_partial : forall a b,
  ~ In EExit b -> (4 <= occurrences is_thread b)%nat ->
  ui_at (ui_run ui_new (EBuilt :: a ++ EDisplay :: b)) = PEnd.
Proof. exact ends. Qed.
Print Assumptions C207_ends_partial.
(** What holds: the terminal is left alone until it is displayed or ended. *)
Theorem C207_silent_partial : forall es, ~ In EExit es -> ~ In EDisplay es ->
  ui_init (ui_run ui_new es) = 0%nat.
Proof. exact silent. Qed.
Print Assumptions C207_silent_partial.
Example C207_ex : ui_init (ui_run ui_new [EBuilt; EThread; EDisplay; EThread]) = 1%nat
  /\ ui_read (ui_run ui_new [EBuilt; EThread; EExit; EThread; EThread; EThread]) = 2%nat.
Proof. split; reflexivity. Qed.

(** C208: After [exit] the thread of the interface ends (the destructor waits
    for it). *)
Theorem C208_exit_ends_refuted : exists es, In EExit es /\
  forall n, ui_at (ui_run ui_new (es ++ repeat EThread n)) <> PEnd.
Proof.
  exists [EBuilt; EThread; EExit].
  exact (conj (or_intror (or_intror (or_introl eq_refl))) exit_hangs).
Qed.
Print Assumptions C208_exit_ends_refuted.
(** It ends exactly when it had already left the key loop before. *)
Theorem C208_exit_ends_partial : forall a b,
  ~ In EDisplay b -> (1 <= occurrences is_thread b)%nat ->
  let s := ui_run ui_new (EBuilt :: a) in
  ui_at (ui_run s (EExit :: b)) = PEnd <-> ui_at s = PLeave \/ ui_at s = PEnd.
Proof. exact exit_ends. Qed.
Print Assumptions C208_exit_ends_partial.
Example C208_ex :
  ui_at (ui_run ui_new [EBuilt; EThread; EDisplay; EThread; EThread]) = PLeave
  /\ ui_at (ui_run ui_new
       [EBuilt; EThread; EDisplay; EThread; EThread; EExit; EThread]) = PEnd
  /\ occurrences is_thread [EThread] = 1%nat.
Proof. repeat split; reflexivity. Qed.

(** C209: At most one interface exists, and one can be created whenever none
    exists. *)
Theorem C209_create_again_refuted : exists os,
  let s := inst_run inst_init os in
  i_live s = 0%nat /\ i_live (inst_step s INew) = 0%nat.
Proof. exists [INew; IDelete]. split; reflexivity. Qed.
Print Assumptions C209_create_again_refuted.
Theorem C209_single_refuted : exists os, i_live (inst_run inst_init os) = 2%nat.
Proof. exact inst_two. Qed.
Print Assumptions C209_single_refuted.
(** Below 2^32 attempts there is never a second one, *)
Theorem C209_single_partial : forall os,
  Z.of_nat (occurrences is_new os) < 2 ^ 32 ->
  (i_live (inst_run inst_init os) <= 1)%nat.
Proof. exact inst_single0. Qed.
Print Assumptions C209_single_partial.
(** and after the first creation no attempt adds an interface. *)
Theorem C209_no_second_partial : forall s os, i_count s = 1 ->
  Z.of_nat (occurrences is_new os) < 2 ^ 32 - 1 ->
  (i_live (inst_run s os) <= i_live s)%nat.
Proof. exact inst_again. Qed.
Print Assumptions C209_no_second_partial.
Example C209_ex : inst_run inst_init [INew] = mkInsts 1 1 /\
  inst_run inst_init [INew; INew; IDelete; INew] = mkInsts 3 0.
Proof. split; reflexivity. Qed.

(** C210: The interface keeps the last five messages in order. *)
Theorem C210_last_five : forall (A : Type) (ms : list A),
  add_messages [] ms = last_entries 5 ms.
Proof. exact add_messages_last0. Qed.
Print Assumptions C210_last_five.
Example C210_ex : add_messages [] [1; 2; 3; 4; 5; 6; 7] = [3; 4; 5; 6; 7]
  /\ add_messages [] [1; 2] = [1; 2].
Proof. split; reflexivity. Qed.

(** C211: A message is displayed as it was given. *)
Theorem C211_undefined_refuted : exists m, mvprintw m = UB.
Proof. exists [56; 48; 37; 32; 100]. reflexivity. Qed.   (* 80% d *)
Print Assumptions C211_undefined_refuted.
Theorem C211_changed_refuted : exists m t, mvprintw m = Ok t /\ t <> m.
Proof.
  exists [56; 37; 37], [56; 37]. split; [reflexivity|discriminate].
Qed.
Print Assumptions C211_changed_refuted.
(** A single message is displayed unchanged exactly if it has no '%', *)
Theorem C211_message_partial : forall m, mvprintw m = Ok m <-> ~ In 37 m.
Proof. exact mvprintw_iff. Qed.
Print Assumptions C211_message_partial.
(** and a list of such messages is displayed in order, one per row. *)
Theorem C211_list_partial : forall ms, (forall m, In m ms -> ~ In 37 m) ->
  print_messages ms 0 = Ok (combine (seq 0 (length ms)) ms).
Proof. exact (fun ms => print_messages_ok ms 0). Qed.
Print Assumptions C211_list_partial.
Example C211_ex : print_messages [[111; 107]; [110; 111]] 0
  = Ok [(0%nat, [111; 107]); (1%nat, [110; 111])].
Proof. reflexivity. Qed.

(** C212: The areas of the screen do not overlap. *)
Theorem C212_separate_refuted : exists lines n m, lines = 24 /\ (m <= 5)%nat /\
  ~ separate (areas lines n m).
Proof.
  exists 24, 4%nat, 0%nat. split; [reflexivity|]. split; [lia|].
  apply no_fit; lia.
Qed.
Print Assumptions C212_separate_refuted.
(** They overlap as soon as there are more than [lines - 21] sequences, *)
Theorem C212_overlap_partial : forall lines n m,
  21 <= lines < 2 ^ 31 -> lines < Z.of_nat n + 21 ->
  ~ separate (areas lines n m).
Proof. exact no_fit. Qed.
Print Assumptions C212_overlap_partial.
(** and fit otherwise. *)
Theorem C212_separate_partial : forall lines n m,
  Z.of_nat n + 21 <= lines < 2 ^ 31 -> (m <= 5)%nat ->
  on_screen lines (areas lines n m) /\ separate (areas lines n m).
Proof. exact fits. Qed.
Print Assumptions C212_separate_partial.
Example C212_ex : areas 24 3 5 =
  [[0; 1; 2]; [4; 5; 6; 7]; [8; 9; 10; 11; 12; 13]; [14; 15];
   [18; 19; 19; 20; 21; 21]; [23; 23]].
Proof. reflexivity. Qed.

(** C213: The prompt returns the number that was typed. *)
Theorem C213_prompt_refuted : exists ds, digits_ok ds /\
  decimal ds = 7 /\ prompt_for_int (typed ds) = UB.
Proof.
  exists [0; 0; 0; 0; 0; 0; 0; 0; 0; 7].
  split; [|split; reflexivity].
  unfold digits_ok; repeat constructor; lia.
Qed.
Print Assumptions C213_prompt_refuted.
(** Ten characters or more overrun the buffer, *)
Theorem C213_overrun_partial : forall line,
  prompt_for_int line = UB <-> (10 <= length line)%nat.
Proof. exact prompt_overflow. Qed.
Print Assumptions C213_overrun_partial.
(** up to nine digits give their value, *)
Theorem C213_value_partial : forall ds, digits_ok ds -> (length ds <= 9)%nat ->
  prompt_for_int (typed ds) = Ok (decimal ds).
Proof. exact prompt_value. Qed.
Print Assumptions C213_value_partial.
(** a minus sign and up to eight digits the negative value, *)
Theorem C213_negative_partial : forall ds, digits_ok ds -> (length ds <= 8)%nat ->
  prompt_for_int (45 :: typed ds) = Ok (- decimal ds).
Proof. exact prompt_negative. Qed.
Print Assumptions C213_negative_partial.
(** and every value that is returned is an [int]. *)
Theorem C213_range_partial : forall line v, prompt_for_int line = Ok v ->
  - 2 ^ 31 <= v < 2 ^ 31.
Proof. exact prompt_range. Qed.
Print Assumptions C213_range_partial.
Example C213_ex : prompt_for_int [32; 45; 52; 50; 120] = Ok (-42)
  /\ decimal [4; 2] = 42 /\ typed [4; 2] = [52; 50].
Proof. repeat split; reflexivity. Qed.
