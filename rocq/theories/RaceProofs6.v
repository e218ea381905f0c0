(** * Races, torn pairs of members and a deadlock *)
From Coq Require Import List String Bool Arith Lia.
From Verif Require Import RaceModel RaceSpec RaceProofs RaceProofs2 RaceProofs3 RaceProofs4 RaceProofs5.
Import ListNotations.
Local Open Scope string_scope.
Local Open Scope list_scope.
Local Open Scope nat_scope.

Local Notation T := true.
Local Notation F := false.

Ltac usetwo := apply uses_two; cbn [app]; eachin; left; cbn; tauto.
Ltac wit c0 bs0 c1 bs1 ts0 :=
  match goal with |- exists _ _, _ /\ _ /\ race_on ?x _ =>
    let H := fresh in
    assert (H : races 50 x c0 bs0 c1 bs1 ts0 = true) by (vm_compute; reflexivity);
    apply races_sound in H; destruct H as (s & R & Ra); exists (two c0 c1), s;
    split; [usetwo|split; [exact R|exact Ra] ] end.

Definition steps (n0 n1 : nat) : list nat := repeat 0 n0 ++ repeat 1 n1.

Lemma g_race : exists cs s, uses 1 (g_methods 1 (Some 2)) cs /\ reachable cs s /\ race_on (1, "parabolic") s.
Proof. wit [g_run 1 (Some 2)] [T; T; T; T; T] [g_parabolic 1] (@nil bool) (steps 8 1). Qed.

Lemma ct_race : exists cs s, uses 1 [ct_run 1; ct_setValue 1; ct_getValue 1] cs /\ reachable cs s /\
  race_on (1, "value") s.
Proof. wit [ct_setValue 1] (@nil bool) [ct_getValue 1] (@nil bool) (steps 2 1). Qed.

Lemma i_race : exists cs s, uses 1 (i_methods 1 (Some 2)) cs /\ reachable cs s /\ race_on (1, "enabled") s.
Proof. wit [i_run 1 (Some 2)] [T; T; T; T] [i_enable 1] (@nil bool) (steps 9 1). Qed.

Lemma rl_race : exists cs s, uses 1 (rl_methods 1 (Some 2)) cs /\ reachable cs s /\ race_on (1, "enabled") s.
Proof. wit [rl_run 1 (Some 2)] [T] [rl_enable 1] (@nil bool) (steps 5 1). Qed.

Lemma sa_race : exists cs s, uses 1 (sa_methods 1 (Some 2)) cs /\ reachable cs s /\ race_on (1, "upperLimit") s.
Proof. wit [sa_run 1 (Some 2)] [F; T; F] [sa_setLimit 1] (@nil bool) (steps 4 2). Qed.

Lemma wa_race : exists cs s, uses 1 (wa_methods 1 (Some 2)) cs /\ reachable cs s /\ race_on (1, "enabled") s.
Proof. wit [wa_run 1 (Some 2)] [T] [wa_enable 1] (@nil bool) (steps 3 1). Qed.

Lemma sw_race : exists cs s, uses 1 (sw_methods 1 [2] []) cs /\ reachable cs s /\ race_on (1, "currentInput") s.
Proof. wit [sw_run 1 [2] []] [T; T; T; T] [sw_to 1 []] [F] (steps 2 1). Qed.

Lemma sp_race : exists cs s, uses 1 (sp_methods 1) cs /\ reachable cs s /\ race_on (1, "first") s.
Proof. wit [sp_run 1] [F; F] [sp_reset 1] (@nil bool) (steps 1 2). Qed.

Lemma pp_race : exists cs s, uses 1 (pp_methods 1) cs /\ reachable cs s /\ race_on (1, "finished") s.
Proof. wit [pp_run 1] [F; T; F; F] [pp_move 1] [T; T] (steps 7 1). Qed.

(** Two threads planning at the same time. *)
Lemma pp_race2 : exists cs s, uses 1 (pp_methods 1) cs /\ reachable cs s /\ race_on (1, "coeff") s.
Proof. wit [pp_move 1] [T; F; F] [pp_move 1] [T; F; F] (steps 4 4). Qed.

Lemma rb_race : exists cs s, uses 1 [rb_push 1; rb_pop 1; rb_length 1] cs /\ reachable cs s /\
  race_on (1, "len") s.
Proof. wit [rb_push 1] [F] [rb_length 1] (@nil bool) (steps 5 1). Qed.

Lemma so_race : exists cs s, uses 1 (so_methods 1) cs /\ reachable cs s /\ race_on (1, "rxBuf") s.
Proof. wit [so_cycle 1] [F; T; F; T; F] [so_getReceiveBuffer 1] [T; F] (repeat 1 3 ++ repeat 0 5). Qed.

Lemma tr_race : exists cs s, uses 1 [tr_in_up 1 (Some 2); tr_out_up 1 3] cs /\ reachable cs s /\
  race_on (1, "refresh") s.
Proof. wit [tr_in_up 1 (Some 2)] (@nil bool) [tr_out_up 1 3] [T] (steps 7 1). Qed.

Lemma kf_race : exists cs s, uses 3 [kf_prediction 3 [Some 2]; kf_correction 3 [Some 2] []; plain_run 4 [Some 3]] cs /\
  reachable cs s /\ race_on (3, "out.value") s.
Proof. wit [kf_prediction 3 [Some 2]] [T; F] [plain_run 4 [Some 3]] (@nil bool) (steps 8 1). Qed.

Lemma sig_race : exists cs s, uses 2 [ct_run 2; plain_run 3 [Some 2]] cs /\ reachable cs s /\
  race_on (2, "out.value") s.
Proof. wit [ct_run 2] (@nil bool) [plain_run 3 [Some 2]] (@nil bool) (steps 3 1). Qed.

Lemma ss_race : exists cs s, uses 0 [ss_run []; ss_level; ss_trigger] cs /\ reachable cs s /\ race_on cur s.
Proof. wit [ss_run []] [T; T; F] [ss_level] [T] (steps 3 1). Qed.

Lemma td_race : exists cs s, uses 1 [td_run 1 [ct_run 2]; td_start 1; td_stop 1; td_addBlock 1; td_removeBlock 1] cs /\
  reachable cs s /\ race_on (1, "blocks") s.
Proof. wit [td_run 1 [ct_run 2]] [F] [td_removeBlock 1] (@nil bool) (steps 2 1). Qed.

(** ** Torn pairs *)
Ltac wtear c0 bs0 c1 bs1 ts0 :=
  match goal with |- exists _ _ _ _, _ /\ _ /\ _ /\ torn _ ?x ?y =>
    let H := fresh in
    assert (H : tears_at 50 x y c0 bs0 c1 bs1 ts0 = true) by (vm_compute; reflexivity);
    apply tears_at_sound in H; destruct H as (s0 & h & s & S & R & To); exists (two c0 c1), s0, h, s;
    split; [usetwo|split; [exact S|split; [exact R|exact To] ] ] end.

Lemma i_torn : exists cs s0 h s, uses 1 (i_methods 1 (Some 2)) cs /\ starts cs s0 /\ run s0 h s /\
  torn h (1, "upperLimit") (1, "lowerLimit").
Proof.
  wtear [i_run 1 (Some 2)] [T; F; T; T] [i_setLimit 1] [F; F] (repeat 0 10 ++ repeat 1 3 ++ repeat 0 1).
Qed.

Lemma sa_torn : exists cs s0 h s, uses 1 (sa_methods 1 (Some 2)) cs /\ starts cs s0 /\ run s0 h s /\
  torn h (1, "upperLimit") (1, "lowerLimit").
Proof.
  wtear [sa_run 1 (Some 2)] [F; T; F] [sa_setLimit 1] (@nil bool) (repeat 0 5 ++ repeat 1 3 ++ repeat 0 1).
Qed.

Lemma sw_torn : exists cs s0 h s, uses 1 (sw_methods 1 [2] []) cs /\ starts cs s0 /\ run s0 h s /\
  torn h (1, "switchLevel") (1, "delta").
Proof.
  wtear [sw_run 1 [2] []] [T; F; F; T; T; T; T; T] [sw_setCondition 1] (@nil bool)
    (repeat 0 8 ++ repeat 1 3 ++ repeat 0 1).
Qed.

Lemma sig_torn : exists cs s0 h s, uses 2 [ct_run 2; plain_run 3 [Some 2]] cs /\ starts cs s0 /\ run s0 h s /\
  torn h (2, "out.value") (2, "out.timestamp").
Proof.
  wtear [plain_run 3 [Some 2]] (@nil bool) [ct_run 2] (@nil bool) (repeat 0 2 ++ repeat 1 5 ++ repeat 0 2).
Qed.

(** ** The transition with an unconnected input *)
Lemma run_stuck s h s' : (forall t a s1, ~ step s t a s1) -> run s h s' -> h = [] /\ s' = s.
Proof.
  intros N R. induction R as [s|s h s1 t a s2 R IH S]; [auto|].
  destruct (IH N) as [-> ->]. destruct (N _ _ _ S).
Qed.

Lemma deadlocked_no_go s t : deadlocked s -> ~ can_go_on s t.
Proof.
  intros [_ N] (h & s1 & a & s2 & R & _ & S). destruct (run_stuck _ _ _ N R) as [-> ->].
  exact (N _ _ _ S).
Qed.

Definition tr_cs : nat -> list cmd := two [tr_in_steady 1 None] [tr_out_steady 1 3].

Lemma tr_deadlock : exists s, reachable tr_cs s /\ deadlocked s.
Proof.
  assert (E0 : paths 20 [tr_in_steady 1 None] [] = Some [ABegin; ALock 1; AEnd]) by reflexivity.
  assert (E1 : paths 20 [tr_out_steady 1 3] [] = Some [ABegin; ALock 1; ARead (1, "in"); AWrite (v 3);
     ARead (1, "in"); AWrite (ts 3); AUnlock 1; AEnd]) by reflexivity.
  pose (s0 := init [ABegin; ALock 1; AEnd] [ABegin; ALock 1; ARead (1, "in"); AWrite (v 3);
     ARead (1, "in"); AWrite (ts 3); AUnlock 1; AEnd]).
  destruct (sched s0 [0; 0; 0; 1]) as [[h s]|] eqn:E; [|vm_compute in E; discriminate].
  exists s. split.
  - exists s0, h. split; [|eapply sched_sound; exact E].
    exact (starts_two _ _ _ _ _ _ _ E0 E1).
  - assert (A0 : todo s 0 = []) by (cbn in E; inversion E; reflexivity).
    assert (A1 : exists k, todo s 1 = ALock 1 :: k) by (cbn in E; inversion E; cbn; eauto).
    assert (A2 : forall t, todo s (S (S t)) = []) by (cbn in E; inversion E; reflexivity).
    assert (O : own s 1 = Some 0) by (cbn in E; inversion E; reflexivity).
    destruct A1 as [k A1]. split.
    + exists 1. rewrite A1. discriminate.
    + intros t a s' St. assert (Z : exists k, todo s t = a :: k) by (inversion St; eauto).
      destruct Z as [k' Z]. destruct t as [|[|t] ].
      * congruence.
      * inversion St; subst; congruence.
      * rewrite A2 in Z. discriminate.
Qed.

(** The next run of the input block locks its own mutex again. *)
Lemma tr_misuse : exists s, reachable (two [tr_in_steady 1 None; tr_in_steady 1 None] []) s /\ misuse s.
Proof.
  pose (l := [ABegin; ALock 1; AEnd; ABegin; ALock 1; AEnd]).
  assert (E0 : paths 20 [tr_in_steady 1 None; tr_in_steady 1 None] [] = Some l) by reflexivity.
  assert (E1 : paths 20 [] [] = Some []) by reflexivity.
  destruct (sched (init l []) [0; 0; 0; 0]) as [[h s]|] eqn:E; [|vm_compute in E; discriminate].
  exists s. split.
  - exists (init l []), h. split; [|eapply sched_sound; exact E].
    exact (starts_two _ _ _ _ _ _ _ E0 E1).
  - exists 0, 1, [AEnd]. left. cbn in E. inversion E. split; reflexivity.
Qed.

(** ** What is left: members used by one thread or never written *)
Lemma cur_race_free cs s : (forall t c, In c (cs t) -> unwritten cur c) -> reachable cs s -> ~ race_on cur s.
Proof. apply unwritten_race_free. Qed.

Lemma ss_trigger_unwritten : unwritten cur ss_trigger /\ unwritten cur ss_level.
Proof. cbn. repeat split; discriminate. Qed.

Lemma sw_race_free o srcs comb : o <> 0 -> race_free o (sw_methods o srcs comb) ["activeLevel"].
Proof.
  rf.
  - apply ok_guard. unfold sw_run.
    assert (I : forall l d, ok1 false o ["activeLevel"] true true d (sw_in l)).
    { induction l as [|x l IH]; intros d; cbn [sw_in fold_right]; okk. apply IH. }
    assert (W : forall i l d, ok1 false o ["activeLevel"] true true d (sw_to i l)).
    { intros i l d. unfold sw_to. apply ok_alt; [okk|]. apply ok_seq. intros c [<- | Hc]; [okk|].
      apply in_map_iff in Hc. destruct Hc as (j & <- & _). okk. }
    repeat first [apply I | apply W | apply ok_skip | apply ok_throw | apply ok_rd | apply ok_wr
      | (apply ok_lk; congruence) | (apply ok_un; congruence)
      | apply ok_sq | apply ok_alt | (apply ok_seq; eachin) | (apply ok_map; intros) ].
Qed.

(** ** Both threads in the middle of their calls *)
Definition busy (n : nat) (c0 : list cmd) (bs0 : list bool) (c1 : list cmd) (bs1 : list bool)
    (ts : list nat) : bool :=
  match paths n c0 bs0, paths n c1 bs1 with
  | Some l0, Some l1 => match sched (init l0 l1) ts with
                        | Some (_, s) => match todo s 0, todo s 1 with
                                         | _ :: _, _ :: _ => true
                                         | _, _ => false
                                         end
                        | None => false
                        end
  | _, _ => false
  end.

Lemma busy_sound n c0 bs0 c1 bs1 ts : busy n c0 bs0 c1 bs1 ts = true ->
  exists s, reachable (two c0 c1) s /\ todo s 0 <> [] /\ todo s 1 <> [].
Proof.
  unfold busy. destruct (paths n c0 bs0) as [l0|] eqn:E0; [|discriminate].
  destruct (paths n c1 bs1) as [l1|] eqn:E1; [|discriminate].
  destruct (sched (init l0 l1) ts) as [[h s]|] eqn:E2; [|discriminate].
  intros H. exists s. split.
  - exists (init l0 l1), h. split; [eapply starts_two; eauto|eapply sched_sound; eauto].
  - destruct (todo s 0), (todo s 1); split; congruence.
Qed.

(** ** Members nobody writes *)
Lemma foreign_unwritten o x c : foreign o c -> unwritten (o, x) c.
Proof. induction c; cbn; intuition. subst. cbn in *. congruence. Qed.

Lemma unwritten_uses o ms xs : (forall x c, In x xs -> In c ms -> unwritten (o, x) c) -> race_free o ms xs.
Proof.
  intros U cs s x Us R Hx. eapply unwritten_race_free; eauto.
  intros t c Hc. destruct (Us t c Hc) as [Hm | F]; [now apply U | now apply foreign_unwritten].
Qed.

Lemma sa_race_free o src :
  race_free o [sa_run o src; sa_enable o; sa_disable o] ["lowerLimit"; "upperLimit"] /\
  race_free o [sa_run o src; sa_setLimit o] ["enabled"].
Proof.
  split; apply unwritten_uses; intros x c Hx Hc; cbn [In] in Hx, Hc;
    intuition subst; destruct src; cbn; repeat split; intros E; inversion E.
Qed.
