(** Proofs about the text user interface. *)
From Coq Require Import List ZArith Lia Bool Arith.
From Verif Require Import Prelude CursesModel CursesSpec.
Import ListNotations.
Open Scope Z_scope.

(** * The thread *)

Lemma ui_run_app : forall a b s, ui_run s (a ++ b) = ui_run (ui_run s a) b.
Proof. intros; unfold ui_run; apply fold_left_app. Qed.

Definition quiet (s : ui) : Prop :=
  ui_read s = 0%nat /\
  match ui_at s with
  | PStart => ui_st s = UIdle \/ ui_st s = UActive
  | PIdle => ui_built s = true /\ (ui_st s = UIdle \/ ui_st s = UActive)
  | PKeys => ui_built s = true /\ ui_st s = UActive
  | PLeave => ui_built s = true
  | PEnd => True
  end.

Lemma quiet_step : forall s e, e <> EExit -> quiet s -> quiet (ui_step s e).
Proof.
  intros [st at_ bu ini rd] e He [H1 H2]; unfold quiet in *; cbn in *.
  destruct e; try congruence; destruct at_, bu, st; cbn in *;
    repeat match goal with
    | H : _ /\ _ |- _ => destruct H
    | H : _ \/ _ |- _ => destruct H
    end; try discriminate; try (split; [exact H1|]); auto.
Qed.

Lemma quiet_run : forall es s, ~ In EExit es -> quiet s -> quiet (ui_run s es).
Proof.
  induction es as [|e es IH]; intros s Hn Hq; [exact Hq|].
  change (quiet (ui_run (ui_step s e) es)); apply IH.
  - intro H; apply Hn; right; exact H.
  - apply quiet_step; [|exact Hq]. intro; subst; apply Hn; left; reflexivity.
Qed.

Lemma never_reads : forall es, ~ In EExit es -> ui_read (ui_run ui_new es) = 0%nat.
Proof.
  intros es H; apply (quiet_run es ui_new H); split; [reflexivity|left; reflexivity].
Qed.

Definition dark (s : ui) : Prop :=
  ui_init s = 0%nat /\ ui_st s = UIdle /\
  (ui_at s = PStart \/ ui_at s = PIdle \/ ui_at s = PEnd).

Lemma dark_step : forall s e, e <> EExit -> e <> EDisplay -> dark s -> dark (ui_step s e).
Proof.
  intros [st at_ bu ini rd] e H1 H2 (A & B & C); unfold dark in *; cbn in *.
  subst; destruct e; try congruence; destruct C as [C|[C|C]]; subst; destruct bu;
    cbn; auto 10.
Qed.

Lemma silent : forall es, ~ In EExit es -> ~ In EDisplay es ->
  ui_init (ui_run ui_new es) = 0%nat.
Proof.
  intros es H1 H2.
  assert (D : forall es s, ~ In EExit es -> ~ In EDisplay es -> dark s -> dark (ui_run s es)).
  { clear; induction es as [|e es IH]; intros s H1 H2 D; [exact D|].
    change (dark (ui_run (ui_step s e) es)); apply IH.
    - intro H; apply H1; right; exact H.
    - intro H; apply H2; right; exact H.
    - apply dark_step; try exact D; intro; subst.
      + apply H1; left; reflexivity.
      + apply H2; left; reflexivity. }
  apply (D es ui_new H1 H2). repeat split; left; reflexivity.
Qed.

Definition rank_pc (p : ui_pc) : nat :=
  match p with PStart => 4 | PIdle => 3 | PKeys => 2 | PLeave => 1 | PEnd => 0 end.

Definition lit (s : ui) : Prop :=
  ui_built s = true /\
  match ui_at s with
  | PStart | PIdle | PKeys => ui_st s = UActive
  | _ => True
  end.

Lemma lit_step : forall s e, e <> EExit -> lit s ->
  lit (ui_step s e) /\
  (rank_pc (ui_at (ui_step s e)) <= rank_pc (ui_at s) - (if is_thread e then 1 else 0))%nat.
Proof.
  intros [st at_ bu ini rd] e He [H1 H2]; unfold lit in *; cbn in *; subst.
  destruct e; try congruence; destruct at_; cbn in *; subst; cbn; auto with arith.
Qed.

Lemma lit_run : forall es s, ~ In EExit es -> lit s ->
  (rank_pc (ui_at (ui_run s es)) <= rank_pc (ui_at s) - occurrences is_thread es)%nat.
Proof.
  induction es as [|e es IH]; intros s Hn L; [cbn; lia|].
  assert (e <> EExit) by (intro; subst; apply Hn; left; reflexivity).
  destruct (lit_step s e H L) as [L' R].
  specialize (IH (ui_step s e) (fun I => Hn (or_intror I)) L').
  change (ui_run s (e :: es)) with (ui_run (ui_step s e) es).
  unfold occurrences in *; cbn [filter]; destruct (is_thread e); cbn [length]; lia.
Qed.

Lemma built_run : forall es s, ui_built s = true -> ui_built (ui_run s es) = true.
Proof.
  induction es as [|e es IH]; intros s H; [exact H|].
  change (ui_built (ui_run (ui_step s e) es) = true); apply IH.
  destruct s as [st at_ bu ini rd]; cbn in *; subst; destruct e, at_; cbn; auto;
    destruct st; reflexivity.
Qed.

Lemma ends : forall a b, ~ In EExit b -> (4 <= occurrences is_thread b)%nat ->
  ui_at (ui_run ui_new (EBuilt :: a ++ EDisplay :: b)) = PEnd.
Proof.
  intros a b Hn Hc.
  change (EBuilt :: a ++ EDisplay :: b) with ((EBuilt :: a) ++ EDisplay :: b).
  rewrite ui_run_app.
  assert (B : ui_built (ui_run ui_new (EBuilt :: a)) = true).
  { change (ui_built (ui_run (ui_step ui_new EBuilt) a) = true).
    apply built_run; reflexivity. }
  set (s := ui_run ui_new (EBuilt :: a)) in *.
  change (ui_run s (EDisplay :: b)) with (ui_run (ui_step s EDisplay) b).
  assert (L : lit (ui_step s EDisplay)).
  { destruct s as [st at_ bu ini rd]; unfold lit; cbn in *; destruct at_; auto. }
  pose proof (lit_run b _ Hn L) as R.
  assert (rank_pc (ui_at (ui_step s EDisplay)) <= 4)%nat
    by (destruct (ui_at (ui_step s EDisplay)); cbn; lia).
  destruct (ui_at (ui_run (ui_step s EDisplay) b)); cbn in *; try lia; reflexivity.
Qed.

(** After [exit]. *)
Definition stuck (s : ui) : Prop :=
  ui_built s = true /\ ui_st s = UStopping /\
  (ui_at s = PStart \/ ui_at s = PIdle \/ ui_at s = PKeys).

Lemma stuck_run : forall b s, ~ In EDisplay b -> stuck s -> stuck (ui_run s b).
Proof.
  induction b as [|e b IH]; intros s Hn D; [exact D|].
  change (stuck (ui_run (ui_step s e) b)); apply IH.
  - intro H; apply Hn; right; exact H.
  - assert (e <> EDisplay) by (intro; subst; apply Hn; left; reflexivity).
    destruct s as [st at_ bu ini rd]; destruct D as (A & B & C); cbn in *; subst.
    unfold stuck; destruct e; try congruence; destruct C as [C|[C|C]]; subst; cbn; auto 10.
Qed.

Lemma leaving_run : forall b s, ui_at s = PLeave \/ ui_at s = PEnd ->
  (1 <= occurrences is_thread b)%nat -> ui_at (ui_run s b) = PEnd.
Proof.
  assert (P : forall b s, ui_at s = PEnd -> ui_at (ui_run s b) = PEnd).
  { induction b as [|e b IH]; intros s H; [exact H|].
    change (ui_at (ui_run (ui_step s e) b) = PEnd); apply IH.
    destruct s as [st at_ bu ini rd]; cbn in *; subst; destruct e; cbn; auto;
      destruct bu; reflexivity. }
  induction b as [|e b IH]; intros s H C; [cbn in C; lia|].
  change (ui_at (ui_run (ui_step s e) b) = PEnd).
  destruct H as [H|H].
  - destruct e; unfold occurrences in *; cbn [filter is_thread] in C.
    + apply IH; [|exact C]; left; destruct s as [st at_ bu ini rd]; cbn in *;
        destruct bu; exact H.
    + apply IH; [|exact C]; left; exact H.
    + apply IH; [|exact C]; left; exact H.
    + apply P; destruct s as [st at_ bu ini rd]; cbn in *; subst; reflexivity.
  - apply P. destruct s as [st at_ bu ini rd]; cbn in *; subst; destruct e; cbn; auto;
      destruct bu; reflexivity.
Qed.

Lemma exit_ends : forall a b, ~ In EDisplay b -> (1 <= occurrences is_thread b)%nat ->
  let s := ui_run ui_new (EBuilt :: a) in
  ui_at (ui_run s (EExit :: b)) = PEnd <-> ui_at s = PLeave \/ ui_at s = PEnd.
Proof.
  intros a b Hn Hc s.
  assert (B : ui_built s = true).
  { unfold s; change (ui_built (ui_run (ui_step ui_new EBuilt) a) = true).
    apply built_run; reflexivity. }
  change (ui_run s (EExit :: b)) with (ui_run (ui_step s EExit) b).
  split.
  - intro E. destruct (ui_at s) eqn:A; auto;
    assert (D : stuck (ui_step s EExit))
      by (unfold stuck; cbn; auto);
    destruct (stuck_run b _ Hn D) as (_ & _ & [X|[X|X]]); congruence.
  - intro H; apply leaving_run; [exact H|exact Hc].
Qed.

Lemma exit_hangs : forall n,
  ui_at (ui_run ui_new ([EBuilt; EThread; EExit] ++ repeat EThread n)) <> PEnd.
Proof.
  intros n E; rewrite ui_run_app in E.
  assert (D : stuck (ui_run ui_new [EBuilt; EThread; EExit]))
    by (repeat split; right; left; reflexivity).
  assert (N : ~ In EDisplay (repeat EThread n))
    by (intro H; apply repeat_spec in H; discriminate).
  destruct (stuck_run _ _ N D) as (_ & _ & [X|[X|X]]); congruence.
Qed.

(** * Instances *)

Lemma inst_run_app : forall a b s, inst_run s (a ++ b) = inst_run (inst_run s a) b.
Proof. intros; unfold inst_run; apply fold_left_app. Qed.

Lemma inst_single : forall os s k,
  i_count s = Z.of_nat k -> (k = 0%nat -> i_live s = 0%nat) -> (i_live s <= 1)%nat ->
  Z.of_nat (k + occurrences is_new os) < 2 ^ 32 ->
  (i_live (inst_run s os) <= 1)%nat.
Proof.
  induction os as [|o os IH]; intros s k Hk H0 H1 Hb; [exact H1|].
  change (inst_run s (o :: os)) with (inst_run (inst_step s o) os).
  unfold occurrences in *; destruct o; cbn [filter is_new length] in Hb.
  - apply (IH _ (S k)); cbn [inst_step].
    + rewrite Hk, Z.mod_small by lia.
      destruct (1 <? Z.of_nat k + 1); cbn; lia.
    + discriminate.
    + rewrite Hk, Z.mod_small by lia.
      destruct (Z.ltb_spec 1 (Z.of_nat k + 1)); cbn; [exact H1|].
      rewrite H0 by lia; lia.
    + lia.
  - apply (IH _ k); cbn [inst_step i_count i_live]; auto; try lia.
Qed.

Lemma inst_single0 : forall os, Z.of_nat (occurrences is_new os) < 2 ^ 32 ->
  (i_live (inst_run inst_init os) <= 1)%nat.
Proof. intros; apply (inst_single os inst_init 0); cbn; auto. Qed.

Lemma inst_again : forall s os, i_count s = 1 ->
  Z.of_nat (occurrences is_new os) < 2 ^ 32 - 1 ->
  (i_live (inst_run s os) <= i_live s)%nat.
Proof.
  assert (G : forall os s k, i_count s = Z.of_nat k -> (1 <= k)%nat ->
    Z.of_nat (k + occurrences is_new os) < 2 ^ 32 ->
    (i_live (inst_run s os) <= i_live s)%nat).
  { induction os as [|o os IH]; intros s k Hk H1 Hb; [cbn; lia|].
    change (inst_run s (o :: os)) with (inst_run (inst_step s o) os).
    unfold occurrences in *; destruct o; cbn [filter is_new length] in Hb.
    - assert (E : inst_step s INew = mkInsts (Z.of_nat (S k)) (i_live s)).
      { cbn [inst_step]; rewrite Hk, Z.mod_small by lia.
        destruct (Z.ltb_spec 1 (Z.of_nat k + 1)); [f_equal; lia|lia]. }
      rewrite E. refine (IH (mkInsts (Z.of_nat (S k)) (i_live s)) (S k) eq_refl _ _); lia.
    - specialize (IH (inst_step s IDelete) k); cbn [inst_step i_count i_live] in *. lia. }
  intros s os E H; apply (G os s 1%nat); [exact E|lia|lia].
Qed.

Lemma inst_wrap : forall k c, 1 <= c -> c + Z.of_nat k < 2 ^ 32 ->
  inst_run (mkInsts c 1) (repeat INew k) = mkInsts (c + Z.of_nat k) 1.
Proof.
  induction k as [|k IH]; intros c H1 H2.
  - cbn; f_equal; lia.
  - change (inst_run (mkInsts c 1) (repeat INew (S k)))
      with (inst_run (inst_step (mkInsts c 1) INew) (repeat INew k)).
    assert (E : inst_step (mkInsts c 1) INew = mkInsts (c + 1) 1).
    { cbn [inst_step i_count i_live]; rewrite Z.mod_small by lia.
      destruct (Z.ltb_spec 1 (c + 1)); [reflexivity|lia]. }
    rewrite E, IH by lia; f_equal; lia.
Qed.

Lemma inst_two : exists os, i_live (inst_run inst_init os) = 2%nat.
Proof.
  exists (INew :: repeat INew (Z.to_nat (2 ^ 32 - 2)) ++ [INew]).
  change (INew :: repeat INew (Z.to_nat (2 ^ 32 - 2)) ++ [INew])
    with ([INew] ++ repeat INew (Z.to_nat (2 ^ 32 - 2)) ++ [INew]).
  rewrite inst_run_app, inst_run_app.
  assert (E : inst_run inst_init [INew] = mkInsts 1 1) by reflexivity.
  rewrite E, inst_wrap; rewrite ?Z2Nat.id by lia; try lia.
  reflexivity.
Qed.

(** * Messages *)

Lemma add_messages_last : forall (A : Type) (ms l : list A) all,
  l = last_entries 5 all ->
  add_messages l ms = last_entries 5 (all ++ ms).
Proof.
  intros A; induction ms as [|m ms IH]; intros l all E.
  - rewrite app_nil_r; exact E.
  - change (add_messages l (m :: ms)) with (add_messages (add_message l m) ms).
    replace (all ++ m :: ms) with ((all ++ [m]) ++ ms) by (rewrite <- app_assoc; reflexivity).
    apply IH. subst l. unfold add_message, last_entries, MESSAGE_LINES.
    rewrite !app_length, skipn_length; cbn [length].
    destruct (Nat.ltb_spec (6 - 1) (length all - (length all - 5) + 1)).
    + replace (length all + 1 - 5)%nat with (S (length all - 5)) by lia.
      assert (HL : (length all - 5 < length all)%nat) by lia.
      rewrite skipn_app.
      replace (S (length all - 5) - length all)%nat with 0%nat by lia.
      cbn [skipn].
      revert HL. generalize (length all - 5)%nat as k. intros k HL.
      clear - HL. revert k HL. induction all as [|x all IHa]; intros k HL; [cbn in HL; lia|].
      destruct k as [|k].
      * reflexivity.
      * cbn [skipn]; apply IHa; cbn in HL; lia.
    + replace (length all - 5)%nat with 0%nat by lia.
      replace (length all + 1 - 5)%nat with 0%nat by lia.
      reflexivity.
Qed.

Lemma add_messages_last0 : forall (A : Type) (ms : list A),
  add_messages [] ms = last_entries 5 ms.
Proof. intros A ms; apply (add_messages_last A ms [] []); reflexivity. Qed.

Lemma mvprintw_len : forall m t, mvprintw m = Ok t ->
  (length t <= length m)%nat /\ (In 37 m -> (length t < length m)%nat).
Proof.
  assert (G : forall n m t, (length m <= n)%nat -> mvprintw m = Ok t ->
    (length t <= length m)%nat /\ (In 37 m -> (length t < length m)%nat)).
  { induction n as [|n IH]; intros m t L E.
    - destruct m; [|cbn in L; lia]. injection E as <-; cbn; split; [lia|contradiction].
    - destruct m as [|c r]; [injection E as <-; cbn; split; [lia|contradiction]|].
      cbn in E, L. destruct (Z.eqb_spec c 37) as [->|N].
      + destruct r as [|d r']; [discriminate|].
        destruct (Z.eqb_spec d 37) as [->|]; [|discriminate].
        destruct (mvprintw r') as [t'| |] eqn:E'; try discriminate.
        injection E as <-. destruct (IH r' t') as [A B]; [cbn in L; lia|exact E'|].
        cbn; split; intros; lia.
      + destruct (mvprintw r) as [t'| |] eqn:E'; try discriminate.
        injection E as <-. destruct (IH r t') as [A B]; [lia|exact E'|].
        cbn; split; [lia|]. intros [H|H]; [congruence|]. specialize (B H); lia. }
  intros m t; apply (G (length m)); lia.
Qed.

Lemma mvprintw_id : forall m, ~ In 37 m -> mvprintw m = Ok m.
Proof.
  induction m as [|c r IH]; intros H; [reflexivity|].
  cbn. destruct (Z.eqb_spec c 37) as [->|N]; [exfalso; apply H; left; reflexivity|].
  rewrite IH; [reflexivity|]. intro; apply H; right; assumption.
Qed.

Lemma mvprintw_iff : forall m, mvprintw m = Ok m <-> ~ In 37 m.
Proof.
  intros m; split; [|apply mvprintw_id].
  intros E H; apply mvprintw_len in E; destruct E as [_ E]; specialize (E H); lia.
Qed.

Lemma print_messages_ok : forall ms i, (forall m, In m ms -> ~ In 37 m) ->
  print_messages ms i = Ok (combine (seq i (length ms)) ms).
Proof.
  induction ms as [|m ms IH]; intros i H; [reflexivity|].
  cbn [print_messages]. rewrite mvprintw_id by (apply H; left; reflexivity).
  cbn [bind]. rewrite IH by (intros; apply H; right; assumption).
  reflexivity.
Qed.

(** * promptForInt *)

Lemma atoi_digits_value : forall ds acc, digits_ok ds ->
  atoi_digits acc (typed ds) = fold_left (fun v d => 10 * v + d) ds acc.
Proof.
  induction ds as [|d ds IH]; intros acc H; [reflexivity|].
  inversion H as [|? ? Hd Hr]; subst. cbn [typed map atoi_digits fold_left].
  assert (E : is_digit (48 + d) = true)
    by (unfold is_digit; apply andb_true_intro; split; apply Z.leb_le; lia).
  rewrite E. fold (typed ds). rewrite IH by exact Hr. f_equal; lia.
Qed.

Lemma prompt_value : forall ds, digits_ok ds -> (length ds <= 9)%nat ->
  prompt_for_int (typed ds) = Ok (decimal ds).
Proof.
  intros ds H L. unfold prompt_for_int, typed; rewrite map_length.
  destruct (Nat.ltb_spec 9 (length ds)); [lia|]. f_equal.
  fold (typed ds). unfold decimal. rewrite <- atoi_digits_value by exact H.
  destruct ds as [|d ds]; [reflexivity|].
  inversion H as [|? ? Hd Hr]; subst.
  cbn [typed map atoi].
  assert (E : is_space (48 + d) = false).
  { unfold is_space; apply orb_false_intro; [apply Z.eqb_neq; lia|].
    apply andb_false_intro2, Z.leb_gt; lia. }
  rewrite E. unfold atoi_signed.
  destruct (Z.eqb_spec (48 + d) 45); [lia|].
  destruct (Z.eqb_spec (48 + d) 43); [lia|]. reflexivity.
Qed.

Lemma prompt_negative : forall ds, digits_ok ds -> (length ds <= 8)%nat ->
  prompt_for_int (45 :: typed ds) = Ok (- decimal ds).
Proof.
  intros ds H L. unfold prompt_for_int; cbn [length]. unfold typed at 1; rewrite map_length.
  destruct (Nat.ltb_spec 9 (S (length ds))); [lia|]. f_equal.
  cbn [atoi]. change (is_space 45) with false. cbn iota.
  unfold atoi_signed. change (45 =? 45) with true. cbn iota.
  rewrite atoi_digits_value by exact H. reflexivity.
Qed.

Lemma prompt_overflow : forall line,
  prompt_for_int line = UB <-> (10 <= length line)%nat.
Proof.
  intros line; unfold prompt_for_int.
  destruct (Nat.ltb_spec 9 (length line)); split; intros; try lia; try reflexivity;
    discriminate.
Qed.

Lemma atoi_digits_bound : forall l acc, 0 <= acc ->
  0 <= atoi_digits acc l < (acc + 1) * 10 ^ Z.of_nat (length l).
Proof.
  induction l as [|c r IH]; intros acc Ha.
  - cbn [atoi_digits length]. change (10 ^ Z.of_nat 0) with 1. lia.
  - cbn [atoi_digits length]. rewrite Nat2Z.inj_succ, Z.pow_succ_r by lia.
    assert (P : 0 < 10 ^ Z.of_nat (length r)) by (apply Z.pow_pos_nonneg; lia).
    destruct (is_digit c) eqn:D.
    + unfold is_digit in D; apply andb_prop in D; destruct D as [D1 D2].
      apply Z.leb_le in D1, D2.
      specialize (IH (10 * acc + (c - 48)) ltac:(lia)). nia.
    + nia.
Qed.

Lemma atoi_bound : forall l, (length l <= 9)%nat -> - 10 ^ 9 < atoi l < 10 ^ 9.
Proof.
  assert (D : forall l, (length l <= 9)%nat -> 0 <= atoi_digits 0 l < 10 ^ 9).
  { intros l L. pose proof (atoi_digits_bound l 0 ltac:(lia)) as B.
    assert (10 ^ Z.of_nat (length l) <= 10 ^ 9) by (apply Z.pow_le_mono_r; lia). lia. }
  assert (S : forall l, (length l <= 9)%nat -> - 10 ^ 9 < atoi_signed l < 10 ^ 9).
  { intros l L. destruct l as [|c r]; [cbn; lia|]. unfold atoi_signed.
    pose proof (D r ltac:(cbn in L; lia)). pose proof (D (c :: r) L).
    destruct (c =? 45); [lia|]. destruct (c =? 43); lia. }
  induction l as [|c r IH]; intros L; [cbn; lia|].
  cbn [atoi]. destruct (is_space c); [apply IH; cbn in L; lia|apply S; exact L].
Qed.

Lemma prompt_range : forall line v, prompt_for_int line = Ok v ->
  - 2 ^ 31 <= v < 2 ^ 31.
Proof.
  intros line v; unfold prompt_for_int.
  destruct (Nat.ltb_spec 9 (length line)) as [L|L]; [discriminate|].
  intro E; injection E as <-. pose proof (atoi_bound line L). lia.
Qed.

(** * Rows *)

Lemma row_id : forall x, 0 <= x < 2 ^ 31 -> row x = x.
Proof.
  intros x H; unfold row, u32; rewrite Z.mod_small by lia.
  destruct (Z.ltb_spec x (2 ^ 31)); lia.
Qed.

Lemma in_offsets : forall n x, In x (offsets n) -> 0 <= x < Z.of_nat n.
Proof.
  intros n x H; unfold offsets in H; apply in_map_iff in H.
  destruct H as (k & <- & H); apply in_seq in H; lia.
Qed.

Section Fit.
Variables (lines : Z) (n m : nat).
Hypothesis Hl : Z.of_nat n + 21 <= lines < 2 ^ 31.
Hypothesis Hm : (m <= 5)%nat.

Lemma starts : footer_start lines = lines - 2 /\ command_start lines = lines - 6 /\
  status_start lines = lines - 10 /\ message_start lines = lines - 16.
Proof.
  assert (A : footer_start lines = lines - 2)
    by (unfold footer_start, u32; rewrite Z.mod_small; lia).
  assert (B : command_start lines = lines - 6).
  { unfold command_start, u32; rewrite A. change (6 / 2) with 3.
    rewrite Z.mod_small; lia. }
  assert (C : status_start lines = lines - 10)
    by (unfold status_start, u32; rewrite B, Z.mod_small; lia).
  assert (D : message_start lines = lines - 16)
    by (unfold message_start, u32; rewrite C, Z.mod_small; lia).
  auto.
Qed.

Definition low (i : nat) : Z :=
  nth i [0; 4; lines - 16; lines - 10; lines - 6; lines - 1] 0.
Definition high (i : nat) : Z :=
  nth i [3; 5 + Z.of_nat n; lines - 10; lines - 8; lines - 2; lines] 0.

Lemma area_bounds : forall i a r, nth_error (areas lines n m) i = Some a -> In r a ->
  (i < 6)%nat /\ low i <= r < high i.
Proof.
  destruct starts as (A & B & C & D).
  intros i a r E H.
  destruct i as [|[|[|[|[|[|i]]]]]]; cbn [nth_error areas] in E;
    [injection E as <-; split; [lia|]; unfold low, high; cbn [nth] .. |].
  - unfold header_rows in H; apply in_map_iff in H; destruct H as (x & <- & H).
    apply in_offsets in H; unfold header_start; rewrite row_id; lia.
  - unfold sequence_rows, sequence_start in H; destruct H as [<-|H]; [rewrite row_id; lia|].
    apply in_map_iff in H; destruct H as (x & <- & H).
    apply in_offsets in H; rewrite row_id; lia.
  - unfold message_rows in H; rewrite D in H; destruct H as [<-|H]; [rewrite row_id; lia|].
    apply in_map_iff in H; destruct H as (x & <- & H).
    apply in_offsets in H; rewrite row_id; lia.
  - unfold status_rows in H; rewrite C in H; destruct H as [<-|[<-|[]]]; rewrite row_id; lia.
  - unfold command_rows in H; rewrite B in H; destruct H as [<-|H]; [rewrite row_id; lia|].
    apply in_map_iff in H; destruct H as (x & <- & H).
    assert (X : 0 <= x / 2 <= 2)
      by (cbn [In] in H; intuition (subst; cbn; lia)).
    rewrite row_id; lia.
  - unfold footer_rows in H; rewrite A in H; destruct H as [<-|[<-|[]]]; rewrite ?row_id; lia.
  - destruct i; discriminate.
Qed.

Lemma fits : on_screen lines (areas lines n m) /\ separate (areas lines n m).
Proof.
  split.
  - intros a r Ha Hr. apply In_nth_error in Ha; destruct Ha as (i & E).
    destruct (area_bounds i a r E Hr) as (L & B).
    unfold low, high in B.
    destruct i as [|[|[|[|[|[|i]]]]]]; cbn [nth] in B; lia.
  - intros i j a b r Ea Eb Ra Rb.
    destruct (area_bounds i a r Ea Ra) as (L & B).
    destruct (area_bounds j b r Eb Rb) as (L' & B').
    unfold low, high in *.
    destruct i as [|[|[|[|[|[|i]]]]]], j as [|[|[|[|[|[|j]]]]]];
      try reflexivity; cbn [nth] in B, B'; lia.
Qed.
End Fit.

(** Conversely, the list of sequences runs into the messages. *)
Lemma no_fit : forall lines n m, 21 <= lines < 2 ^ 31 -> lines < Z.of_nat n + 21 ->
  ~ separate (areas lines n m).
Proof.
  intros lines n m Hl Hn S.
  assert (Hl' : Z.of_nat 0 + 21 <= lines < 2 ^ 31) by (cbn [Z.of_nat]; lia).
  destruct (starts lines 0%nat 0%nat Hl' ltac:(lia)) as (A & B & C & D).
  specialize (S 1%nat 2%nat (sequence_rows n) (message_rows lines m) (lines - 16)
                eq_refl eq_refl).
  assert (E : 1%nat = 2%nat); [|discriminate]. apply S.
  - unfold sequence_rows, sequence_start; right. apply in_map_iff.
    exists (lines - 21); split; [rewrite row_id; lia|].
    unfold offsets; apply in_map_iff. exists (Z.to_nat (lines - 21)).
    split; [lia|]. apply in_seq; lia.
  - unfold message_rows; rewrite D; left; rewrite row_id; lia.
Qed.
