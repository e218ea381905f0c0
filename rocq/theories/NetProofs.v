(** A time domain solves the equations of its block diagram. *)
From Coq Require Import List Lia Permutation Arith.
From Verif Require Import Prelude CtrlModel CtrlSpec NetModel NetSpec.
Import ListNotations.

Lemma before_In l s b : before l s b -> In s l.
Proof. intros (l1 & l2 & -> & H). apply in_or_app. now left. Qed.
Lemma before_split l1 l2 s b : NoDup (l1 ++ b :: l2) -> before (l1 ++ b :: l2) s b -> In s l1.
Proof.
  intros D (m1 & m2 & E & H).
  assert (E1 : m1 = l1).
  { clear H. revert m1 E. induction l1 as [|x l1 IH]; intros m1 E.
    - destruct m1 as [|y m1]; [reflexivity|]. injection E as <- E. exfalso. inversion D as [|? ? N _]. apply N. rewrite E. apply in_or_app. right. now left.
    - destruct m1 as [|y m1]; injection E as -> E.
      + exfalso. inversion D as [|? ? N _]. apply N. apply in_or_app. right. now left.
      + f_equal. apply IH; [now inversion D|exact E]. }
  now subst.
Qed.
Lemma before_intro l1 l2 s b : In s l1 -> before (l1 ++ b :: l2) s b.
Proof. intros H. exists l1, l2. now split. Qed.

Section Proofs.
  Context {St Sig : Type} (n : net St Sig).

  Lemma read_Forall2 (w : world St Sig) src ins : read_inputs w src = Some ins <->
    Forall2 (fun x v => exists s p, x = Some (s, p) /\ v = w_out w s p) src ins.
  Proof.
    revert ins. induction src as [|[[s p]|] src IH]; intros ins; cbn [read_inputs].
    - split; intros H; [injection H as <-; constructor|inversion H; reflexivity].
    - destruct (read_inputs w src) as [l|] eqn:R.
      + split; intros H.
        * injection H as <-. constructor; [now exists s, p|]. now apply IH.
        * inversion H as [|? v ? l' (s' & p' & E & Ev) H' ]; subst. injection E as <- <-. apply IH in H'. injection H' as <-. reflexivity.
      + split; intros H; [discriminate|]. inversion H as [|? ? ? ? _ H']; subst. apply IH in H'. discriminate.
    - split; intros H; [discriminate|]. inversion H as [|? ? ? ? (s & p & E & _) _]; discriminate.
  Qed.

  (** One block. *)
  Lemma block_run_ok b w w' : block_run n b w = (w', BNormal) ->
    exists ins, read_inputs w (n_src n b) = Some ins /\ n_fun n b (w_st w b) ins = (w_st w' b, w_out w' b, BNormal) /\
      forall c, c <> b -> w_st w' c = w_st w c /\ w_out w' c = w_out w c.
  Proof.
    unfold block_run. destruct (read_inputs w (n_src n b)) as [ins|]; [|discriminate].
    destruct (n_fun n b (w_st w b) ins) as [[s o] e] eqn:F. intros H. injection H as <- ->. exists ins. split; [reflexivity|].
    cbn [w_st w_out]. rewrite !upd_same. split; [exact F|]. intros c Hc. now rewrite !upd_other by auto.
  Qed.

  (** Blocks which do not run keep state and outputs. *)
  Lemma run_frame l : forall w w', all_run (block_run n) l w w' -> forall b, ~ In b l -> w_st w' b = w_st w b /\ w_out w' b = w_out w b.
  Proof.
    induction l as [|b l IH]; intros w w' H; inversion H as [|? ? ? w1 ? R A]; subst; [auto|].
    intros c Hc. destruct (block_run_ok b w w1 R) as (ins & _ & _ & F). destruct (IH w1 w' A c) as [E1 E2]; [intros I; apply Hc; now right|].
    destruct (F c) as [F1 F2]; [intros ->; apply Hc; now left|]. split; [now rewrite E1|now rewrite E2].
  Qed.
  Lemma all_run_app l1 l2 : forall w w', all_run (block_run n) (l1 ++ l2) w w' <-> exists w1, all_run (block_run n) l1 w w1 /\ all_run (block_run n) l2 w1 w'.
  Proof.
    induction l1 as [|b l1 IH]; intros w w'; cbn [app].
    - split; [intros H; exists w; split; [constructor|exact H]|]. intros (w1 & H1 & H2). inversion H1; subst. exact H2.
    - split.
      + intros H. inversion H as [|? ? ? w1 ? R A]; subst. apply IH in A. destruct A as (w2 & A1 & A2). exists w2. split; [econstructor; eassumption|exact A2].
      + intros (w2 & H1 & H2). inversion H1 as [|? ? ? w1 ? R A]; subst. econstructor; [eassumption|]. apply IH. now exists w2.
  Qed.

  Theorem run_solves l w w' : NoDup l -> all_run (block_run n) l w w' -> solves n l w w'.
  Proof.
    intros D A. split; [|intros b Hb; now apply (run_frame l w w')].
    intros b Hb. apply in_split in Hb. destruct Hb as (l1 & l2 & ->).
    apply all_run_app in A. destruct A as (w1 & A1 & A2). inversion A2 as [|? ? ? w2 ? R A3]; subst.
    destruct (block_run_ok b w1 w2 R) as (ins & RI & F & K).
    assert (D' := NoDup_remove_2 _ _ _ D).
    assert (N1 : ~ In b l1) by (intros I; apply D', in_or_app; now left). assert (N2 : ~ In b l2) by (intros I; apply D', in_or_app; now right).
    exists ins. split.
    - clear F. apply read_Forall2 in RI. revert RI. generalize (n_src n b). intros src RI.
      induction RI as [|x v src ins (s & p & -> & ->) RI IH]; [constructor|constructor; [|exact IH]].
      exists s, p. split; [reflexivity|]. split; intros B.
      + apply before_split in B; [|exact D]. assert (s <> b) by (intros ->; contradiction).
        assert (~ In s l2). { intros I. apply in_split in B. destruct B as (k1 & k2 & ->). rewrite <- app_assoc in D. cbn in D.
          apply NoDup_remove_2 in D. apply D. apply in_or_app. right. apply in_or_app. right. now right. }
        destruct (run_frame l2 w2 w' A3 s) as [_ E]; [assumption|]. rewrite E. destruct (K s) as [_ E2]; [assumption|]. now rewrite E2.
      + assert (~ In s l1) by (intros I; apply B; now apply before_intro). destruct (run_frame l1 w w1 A1 s) as [_ E]; [assumption|]. now rewrite E.
    - destruct (run_frame l1 w w1 A1 b N1) as [E1 _]. rewrite <- E1. destruct (run_frame l2 w2 w' A3 b N2) as [E2 E3]. now rewrite E2, E3.
  Qed.

  (** A solution for one order is what running in an equivalent order computes. *)
  Lemma solution_runs l l' w w' : NoDup l -> NoDup l' -> (forall b, In b l <-> In b l') -> same_order n l l' -> solves n l w w' ->
    exists w2, all_run (block_run n) l' w w2 /\ same_world w' w2.
  Proof.
    intros D D' P O [S1 S2].
    enough (G : forall l1 l2, l' = l1 ++ l2 -> exists w2, all_run (block_run n) l1 w w2 /\
              (forall b, In b l1 -> w_st w2 b = w_st w' b /\ w_out w2 b = w_out w' b)).
    { destruct (G l' []) as (w2 & A & E); [now rewrite app_nil_r|]. exists w2. split; [exact A|]. intros b.
      destruct (in_dec Nat.eq_dec b l') as [I|I]; [destruct (E b I) as [E1 E2]; now rewrite E1, E2|].
      destruct (run_frame l' w w2 A b I) as [E1 E2]. destruct (S2 b) as [E3 E4]; [intros J; apply I, P, J|]. now rewrite E1, E2, E3, E4. }
    induction l1 as [|b l1 IH] using rev_ind; intros l2 E.
    - exists w. split; [constructor|intros b []].
    - rewrite <- app_assoc in E. cbn [app] in E. destruct (IH (b :: l2) E) as (w1 & A & Eq).
      assert (Hb : In b l) by (apply P; rewrite E; apply in_or_app; right; now left).
      assert (Nb : ~ In b l1). { intros I. rewrite E in D'. apply NoDup_remove_2 in D'. apply D', in_or_app. now left. }
      destruct (S1 b Hb) as (ins & Se & F).
      assert (RI : read_inputs w1 (n_src n b) = Some ins).
      { apply read_Forall2.
        assert (OB : forall s p, In (Some (s, p)) (n_src n b) -> In s l -> (before l s b <-> before l' s b)) by (intros s p Hs Is; now apply (O b s p)).
        revert Se OB. generalize (n_src n b). intros src Se. clear F. induction Se as [|x v src ins (s & p & -> & B1 & B2) Se IHs]; intros OB; [constructor|]. constructor.
        - exists s, p. split; [reflexivity|]. destruct (in_dec Nat.eq_dec s l1) as [I|I].
          + destruct (Eq s I) as [_ ->]. apply B1. apply (OB s p (or_introl eq_refl)); [apply P; rewrite E; apply in_or_app; now left|]. rewrite E. now apply before_intro.
          + destruct (run_frame l1 w w1 A s I) as [_ ->]. apply B2. intros B. apply I.
            assert (Is : In s l) by (eapply before_In; exact B). apply (OB s p (or_introl eq_refl) Is) in B. rewrite E in B, D'. eapply before_split; eassumption.
        - apply IHs. intros s' p' Hs. apply (OB s' p'). now right. }
      set (w2 := {| w_st := upd (w_st w1) b (w_st w' b); w_out := upd (w_out w1) b (w_out w' b) |}).
      exists w2. split.
      + apply all_run_app. exists w1. split; [exact A|]. econstructor; [|constructor].
        unfold block_run. rewrite RI. destruct (run_frame l1 w w1 A b Nb) as [-> _]. rewrite F. reflexivity.
      + intros c Hc. apply in_app_or in Hc. unfold w2. cbn [w_st w_out]. destruct (Nat.eq_dec c b) as [->|Nc]; [now rewrite !upd_same|].
        rewrite !upd_other by auto. destruct Hc as [Hc|[->|[]]]; [now apply Eq|contradiction].
  Qed.

  Theorem run_unique l w w1 w2 : NoDup l -> solves n l w w1 -> solves n l w w2 -> same_world w1 w2.
  Proof.
    intros D S1 S2.
    assert (O : same_order n l l) by (intros b s p _ _ _; tauto).
    destruct (solution_runs l l w w1 D D (fun b => iff_refl _) O S1) as (v1 & A1 & E1).
    destruct (solution_runs l l w w2 D D (fun b => iff_refl _) O S2) as (v2 & A2 & E2).
    assert (v1 = v2).
    { clear - A1 A2. revert w v1 v2 A1 A2. induction l as [|b l IH]; intros w v1 v2 A1 A2; inversion A1 as [|? ? ? u1 ? R1 B1]; inversion A2 as [|? ? ? u2 ? R2 B2]; subst; [reflexivity|].
      rewrite R1 in R2. injection R2 as <-. eapply IH; eassumption. }
    subst v2. intros b. destruct (E1 b) as [-> ->]. destruct (E2 b) as [-> ->]. now split.
  Qed.
  Theorem run_order l l' w w' : NoDup l -> Permutation l l' -> same_order n l l' -> all_run (block_run n) l w w' ->
    exists w2, all_run (block_run n) l' w w2 /\ same_world w' w2.
  Proof.
    intros D P O A. apply (solution_runs l l' w w'); auto.
    - eapply Permutation_NoDup; eassumption.
    - intros b. split; apply Permutation_in; [exact P|now symmetry].
    - now apply run_solves.
  Qed.
  (** After a fault of block [b] the later blocks keep state and outputs. *)
  Theorem fault_frame l1 b l2 w w1 w2 e : NoDup (l1 ++ b :: l2) -> all_run (block_run n) l1 w w1 -> block_run n b w1 = (w2, e) -> e <> BNormal ->
    run_blocks (block_run n) (l1 ++ b :: l2) w = (w2, e) /\ forall c, In c l2 -> w_st w2 c = w_st w c /\ w_out w2 c = w_out w c.
  Proof.
    intros D A R E. split.
    - clear D. induction A as [w|c l1 w w3 w1 R3 A IH]; cbn [app run_blocks].
      + rewrite R. destruct e; [contradiction|reflexivity..].
      + rewrite R3. now apply IH.
    - intros c Hc. assert (Nc : c <> b) by (intros ->; apply NoDup_remove_2 in D; apply D, in_or_app; now right).
      assert (N1 : ~ In c l1). { intros I. apply in_split in I. destruct I as (k1 & k2 & ->). rewrite <- app_assoc in D. cbn in D. apply NoDup_remove_2 in D.
        apply D, in_or_app. right. apply in_or_app. right. now right. }
      destruct (run_frame l1 w w1 A c N1) as [E1 E2]. rewrite <- E1, <- E2.
      unfold block_run in R. destruct (read_inputs w1 (n_src n b)); [|injection R as <- _; now split].
      destruct (n_fun n b (w_st w1 b) l) as [[s o] e']. injection R as <- _. cbn [w_st w_out]. now rewrite !upd_other by auto.
  Qed.
End Proofs.
