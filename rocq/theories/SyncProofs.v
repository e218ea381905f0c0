(** Proofs about the configuration and the synchronised loops of the executor. *)
From Coq Require Import List ZArith Bool Lia.
From Verif Require Import Prelude Num SyncModel SyncSpec.
Import ListNotations.
Open Scope Z_scope.

(** ** Configuration *)
Lemma go_main {N : num} (s : conf N) o : c_main N (conf_go N s o) =
  match c_main N s with Some w => Some w | None => match first_main [o] with Some (w, _) => Some w | None => None end end.
Proof. destruct o; cbn; unfold conf_go, conf_step, set_main; destruct (c_main N s) eqn:E; cbn; try rewrite E; reflexivity. Qed.
Lemma go_period {N : num} (s : conf N) o : c_period N (conf_go N s o) =
  match c_main N s with Some w => c_period N s | None => match first_main [o] with Some (_, p) => p | None => c_period N s end end.
Proof. destruct o; cbn; unfold conf_go, conf_step, set_main; destruct (c_main N s) eqn:E; cbn; try rewrite E; reflexivity. Qed.
Lemma fold_main {N : num} (os : list (cop N)) : forall s,
  c_main N (fold_left (conf_go N) os s) = match c_main N s with Some w => Some w | None => option_map fst (first_main os) end /\
  c_period N (fold_left (conf_go N) os s) =
    match c_main N s with Some w => c_period N s | None => match first_main os with Some (_, p) => p | None => c_period N s end end.
Proof.
  induction os as [|o os IH]; intros s; cbn [fold_left].
  - cbn. destruct (c_main N s); auto.
  - destruct (IH (conf_go N s o)) as [A B]. rewrite A, B, go_main, go_period.
    destruct (c_main N s); [auto|]. destruct o; cbn; auto.
Qed.
Lemma fold_mon {N : num} (os : list (cop N)) id : forall s, c_mon N (fold_left (conf_go N) os s) id = c_mon N s id ++ monitors os id.
Proof.
  induction os as [|o os IH]; intros s; cbn [fold_left]; [cbn; now rewrite app_nil_r|]. rewrite IH.
  destruct o; cbn; unfold conf_go, conf_step, set_main; cbn; try (destruct (c_main N s); reflexivity); try reflexivity.
  unfold upd. rewrite (Nat.eqb_sym id id0). destruct (Nat.eqb_spec id0 id) as [->|]; [|reflexivity]. now rewrite <- app_assoc.
Qed.
Lemma go_tasks {N : num} (s : conf N) o : c_tasks N (conf_go N s o) = c_tasks N s ++ match o with CAdd id => [(id, c_mon N s id)] | _ => [] end.
Proof. destruct o; unfold conf_go, conf_step, set_main; destruct (c_main N s); cbn; now rewrite ?app_nil_r. Qed.
Lemma fold_tasks {N : num} (os : list (cop N)) : forall s, exists l, c_tasks N (fold_left (conf_go N) os s) = c_tasks N s ++ l.
Proof.
  induction os as [|o os IH]; intros s; cbn [fold_left]; [exists []; now rewrite app_nil_r|].
  destruct (IH (conf_go N s o)) as [l E]. rewrite E, go_tasks, <- app_assoc. eauto.
Qed.
Lemma fold_added {N : num} (os : list (cop N)) : forall s,
  map fst (c_tasks N (fold_left (conf_go N) os s)) = map fst (c_tasks N s) ++ added os.
Proof.
  induction os as [|o os IH]; intros s; cbn [fold_left]; [now rewrite app_nil_r|].
  rewrite IH, go_tasks, map_app, <- app_assoc. f_equal. destruct o; reflexivity.
Qed.
Lemma run_added {N : num} (os : list (cop N)) : map fst (c_tasks N (conf_run N os)) = added os.
Proof. unfold conf_run. now rewrite fold_added. Qed.
Lemma run_mon {N : num} (os : list (cop N)) id : c_mon N (conf_run N os) id = monitors os id.
Proof. unfold conf_run. now rewrite fold_mon. Qed.
Lemma main_task (os : list (cop Dnum)) : conf_start Dnum (conf_run Dnum os) =
  match first_main os with
  | None => Fault
  | Some (who, p) =>
    if neqb Dnum p (nofZ Dnum 0) then Fault
    else Ok (who, match who with Some id => monitors os id | None => [] end, c_tasks Dnum (conf_run Dnum os))
  end.
Proof.
  unfold conf_start. destruct (fold_main os (conf0 Dnum)) as [A B]. fold (conf_run Dnum os) in A, B. rewrite A, B.
  cbn [c_main conf0 option_map].
  destruct (first_main os) as [[who p]|]; cbn [option_map fst]; [|vm_compute; reflexivity].
  destruct (neqb Dnum p (nofZ Dnum 0)); [reflexivity|]. destruct who as [id|]; [|reflexivity]. now rewrite run_mon.
Qed.
Lemma main_first (os1 os2 : list (cop Dnum)) : first_main os1 <> None -> first_main (os1 ++ os2) = first_main os1.
Proof. induction os1 as [|o os IH]; intros H; [now destruct H|]. destruct o; cbn in *; auto. Qed.
Lemma errors_none {N : num} (os : list (cop N)) : forall s, c_errors N s = 0%nat -> NoDup (map fst (c_tasks N s) ++ added os) ->
  c_errors N (fold_left (conf_go N) os s) = 0%nat.
Proof.
  induction os as [|o os IH]; intros s E D; cbn [fold_left]; [exact E|]. apply IH.
  - destruct o; unfold conf_go, conf_step, set_main; try (destruct (c_main N s); exact E); try exact E. cbn [c_errors].
    rewrite E. cbn [added] in D. apply NoDup_remove_2 in D.
    assert (F : filter (fun t => Nat.eqb (fst t) id) (c_tasks N s) = []); [|now rewrite F].
    assert (X : ~ In id (map fst (c_tasks N s))) by (intros H; apply D; apply in_or_app; auto).
    induction (c_tasks N s) as [|[j ms] l IHl]; [reflexivity|]. cbn. cbn in X. destruct (Nat.eqb_spec j id) as [->|]; [exfalso; auto|]. apply IHl; auto.
    intros H. apply D. apply in_or_app. apply in_app_or in H. destruct H; [left; right|right]; auto.
  - rewrite go_tasks, map_app, <- app_assoc. replace (map fst _ ++ added os) with (added (o :: os)); [exact D|]. destruct o; reflexivity.
Qed.
Lemma added_once {N : num} (os : list (cop N)) : NoDup (added os) ->
  NoDup (map fst (c_tasks N (conf_run N os))) /\ c_errors N (conf_run N os) = 0%nat.
Proof. intros D. split; [now rewrite run_added|]. apply errors_none; [reflexivity|exact D]. Qed.
Lemma monitors_kept {N : num} (os1 os2 : list (cop N)) id : In (id, monitors os1 id) (c_tasks N (conf_run N (os1 ++ CAdd id :: os2))).
Proof.
  unfold conf_run. rewrite fold_left_app. cbn [fold_left].
  destruct (fold_tasks os2 (conf_go N (fold_left (conf_go N) os1 (conf0 N)) (CAdd id))) as [l E]. rewrite E, go_tasks.
  apply in_or_app; left. apply in_or_app; right. left. f_equal. apply (run_mon os1).
Qed.

(** ** Choice of the loop *)
Lemma loop_wanted b w l : sensible b w -> (b_ethercat b = true -> w_stack w = true) -> loop_of b w = Some l -> wanted w l.
Proof.
  destruct b as [e r r2], w as [s t p]. unfold sensible, loop_of. cbn. intros (A & B & C) G.
  destruct e, r, r2, s, t, p; cbn; intros H; inversion H; cbn; auto; try (specialize (G eq_refl); discriminate);
    try (destruct (A eq_refl); discriminate); try (destruct (B eq_refl) as [ [ | ] ]; discriminate); try (destruct (C eq_refl); discriminate).
Qed.

(** ** The time of ROS *)
Section RT.
Variables (P t0 : Z).
Definition target (i : nat) : Z := (t0 + Z.of_nat (S i) * P) mod 2 ^ 64.
Definition rinv (s : rt) : Prop :=
  r_next s = target (length (r_log s)) /\
  forall i t x r, nth_error (r_log s) i = Some (t, x, r) -> x = target i /\ (r = true -> x <= t) /\
    (r = false -> S i = length (r_log s) /\ r_run s = false /\ r_phase s <> RSpin).
Lemma target_next i : (target i + P) mod 2 ^ 64 = target (S i).
Proof. unfold target. rewrite Zplus_mod_idemp_l. f_equal. rewrite !Nat2Z.inj_succ. ring. Qed.
Lemma rinv0 : rinv (r_start P t0).
Proof. split; [unfold target; cbn [r_next r_start r_log length]; change (Z.of_nat 1) with 1; now rewrite Z.mul_1_l|]. intros [|i] t x r H; discriminate. Qed.
Lemma rinv_step s o : rinv s -> rinv (r_step P s o).
Proof.
  intros [A B]. destruct o as [t|]; cbn [r_step].
  - destruct (r_phase s) eqn:Ph.
    + split; [exact A|]. cbn. intros i t' x r H. destruct (B _ _ _ _ H) as (B1 & B2 & B3). split; [exact B1|]. split; [exact B2|].
      intros R. destruct (B3 R) as (C1 & C2 & C3). rewrite C2. repeat split; auto. discriminate.
    + destruct ((t <? r_next s) && r_run s) eqn:W; [split; [exact A|]; rewrite Ph; exact B|].
      split; cbn [r_next r_log r_run r_phase].
      * rewrite app_length, Nat.add_comm. cbn [length plus]. rewrite <- target_next, <- A. reflexivity.
      * intros i t' x r H. rewrite app_length. cbn [length].
        destruct (Nat.lt_ge_cases i (length (r_log s))) as [L|L].
        -- rewrite nth_error_app1 in H by exact L. destruct (B _ _ _ _ H) as (B1 & B2 & B3). split; [exact B1|]. split; [exact B2|].
           intros R. destruct (B3 R) as (_ & _ & C3). congruence.
        -- rewrite nth_error_app2 in H by exact L. destruct (i - length (r_log s))%nat eqn:D.
           ++ cbn in H. inversion H; subst. assert (i = length (r_log s)) by lia. subst i. split; [exact A|]. split.
              ** intros R. rewrite R, andb_true_r in W. apply Z.ltb_ge in W. exact W.
              ** intros R. split; [lia|]. split; [exact R|discriminate].
           ++ destruct n; discriminate.
    + split; [exact A|]. rewrite Ph. exact B.
  - split; [exact A|]. cbn. intros i t' x r H. destruct (B _ _ _ _ H) as (B1 & B2 & B3). split; [exact B1|]. split; [exact B2|].
    intros R. destruct (B3 R) as (C1 & C2 & C3). auto.
Qed.
Lemma rinv_runs os : forall s, rinv s -> rinv (r_runs P s os).
Proof. induction os as [|o os IH]; intros s H; [exact H|]. apply IH. now apply rinv_step. Qed.
Lemma r_never_early os i t x r : nth_error (r_log (r_runs P (r_start P t0) os)) i = Some (t, x, r) ->
  x = (t0 + Z.of_nat (S i) * P) mod 2 ^ 64 /\ (x <= t \/ S i = length (r_log (r_runs P (r_start P t0) os))).
Proof.
  intros H. destruct (rinv_runs os _ rinv0) as [_ B]. destruct (B _ _ _ _ H) as (B1 & B2 & B3). split; [exact B1|].
  destruct r; [left; auto|right; now apply B3].
Qed.
Lemma run_true os : forall s, no_stop os -> r_run s = true -> r_run (r_runs P s os) = true.
Proof.
  induction os as [|o os IH]; intros s N R; [exact R|]. apply IH; [intros H; apply N; now right|].
  destruct o as [t|]; [|exfalso; apply N; now left]. cbn. destruct (r_phase s); auto. destruct ((t <? r_next s) && r_run s); auto.
Qed.
Lemma phase_live os : forall s, no_stop os -> r_run s = true -> r_phase s <> RExit -> r_phase (r_runs P s os) <> RExit.
Proof.
  induction os as [|o os IH]; intros s N R Ph; [exact Ph|].
  assert (R' : r_run (r_step P s o) = true) by (apply (run_true [o] s); [intros [H|[] ]; apply N; now left|exact R]).
  apply IH; [intros H; apply N; now right|exact R'|].
  destruct o as [t|]; [|exfalso; apply N; now left]. cbn. destruct (r_phase s) eqn:E; cbn; try congruence. rewrite R. discriminate.
  destruct ((t <? r_next s) && r_run s); cbn; congruence.
Qed.
Lemma log_grows s o : (length (r_log s) <= length (r_log (r_step P s o)))%nat.
Proof. destruct o as [t|]; cbn; [|lia]. destruct (r_phase s); cbn; try lia. destruct ((t <? r_next s) && r_run s); cbn; [lia|]. rewrite app_length. lia. Qed.
Lemma log_grows_all os : forall s, (length (r_log s) <= length (r_log (r_runs P s os)))%nat.
Proof. induction os as [|o os IH]; intros s; [cbn; lia|]. pose proof (log_grows s o). specialize (IH (r_step P s o)). cbn [r_runs fold_left]. unfold r_runs in IH. lia. Qed.
Definition mu (n : nat) (s : rt) : nat := (2 * (n - length (r_log s)) + match r_phase s with RHead => 1 | _ => 0 end)%nat.
Lemma catch_up n ts : 0 <= P -> 0 <= t0 -> t0 + (Z.of_nat n + 1) * P < 2 ^ 64 -> (forall t, In t ts -> t0 + Z.of_nat n * P <= t) ->
  forall s, rinv s -> r_run s = true -> r_phase s <> RExit -> (mu n s <= length ts)%nat ->
  (n <= length (r_log (r_runs P s (at_times ts))))%nat.
Proof.
  intros HP H0 HW. induction ts as [|t ts IH]; intros HT s I R Ph M.
  - unfold mu in M. cbn in *. destruct (r_phase s); lia.
  - destruct (Nat.le_gt_cases n (length (r_log s))) as [L|L]; [pose proof (log_grows_all (at_times (t :: ts)) s); lia|].
    cbn [at_times map r_runs fold_left].
    assert (R' : r_run (r_step P s (RStep t)) = true) by (apply (run_true [RStep t] s); [intros [H|[] ]; discriminate|exact R]).
    assert (P' : r_phase (r_step P s (RStep t)) <> RExit).
    { apply (phase_live [RStep t] s); auto. intros [H|[] ]; discriminate. }
    apply IH; [intros u Hu; apply HT; now right|now apply rinv_step|exact R'|exact P'|].
    destruct I as [A _]. unfold mu in *. cbn [length] in M. cbn [r_step]. destruct (r_phase s) eqn:Q; [| |congruence].
    + cbn. rewrite R. cbn. lia.
    + assert (X : r_next s <= t).
      { rewrite A. unfold target. rewrite Z.mod_small by nia. pose proof (HT t (or_introl eq_refl)). nia. }
      apply Z.ltb_ge in X. rewrite X. cbn [andb r_log r_phase]. rewrite app_length. cbn [length]. lia.
Qed.
Lemma no_cycle_lost n os ts : 0 <= P -> 0 <= t0 -> t0 + (Z.of_nat n + 1) * P < 2 ^ 64 -> no_stop os ->
  (forall t, In t ts -> t0 + Z.of_nat n * P <= t) -> (2 * n + 1 <= length ts)%nat ->
  (n <= length (r_log (r_runs P (r_start P t0) (os ++ at_times ts))))%nat.
Proof.
  intros HP H0 HW N HT L. unfold r_runs. rewrite fold_left_app. apply catch_up; auto.
  - apply rinv_runs, rinv0.
  - apply run_true; auto.
  - apply phase_live; auto. discriminate.
  - unfold mu. destruct (r_phase _); lia.
Qed.
Lemma distance os i j ti xi ri tj xj : 0 <= P -> 0 <= t0 -> t0 + Z.of_nat (S j) * P < 2 ^ 64 -> (i < j)%nat ->
  nth_error (r_log (r_runs P (r_start P t0) os)) i = Some (ti, xi, ri) ->
  nth_error (r_log (r_runs P (r_start P t0) os)) j = Some (tj, xj, true) ->
  ti < xi + P -> tj - ti > Z.of_nat (j - i - 1) * P.
Proof.
  intros HP H0 HW L Hi Hj T. destruct (rinv_runs os _ rinv0) as [_ B].
  destruct (B _ _ _ _ Hi) as (Bi & _). destruct (B _ _ _ _ Hj) as (Bj & C & _). specialize (C eq_refl).
  unfold target in *. rewrite Z.mod_small in Bi, Bj by nia. subst. rewrite !Nat2Z.inj_sub by lia. nia.
Qed.
Lemma r_stop_ends os : forall s, r_run s = false -> (2 <= length os)%nat -> no_stop os ->
  r_phase (r_runs P s os) = RExit /\ (length (r_log (r_runs P s os)) <= S (length (r_log s)))%nat.
Proof.
  assert (X : forall os s, r_phase s = RExit -> r_phase (r_runs P s os) = RExit /\ r_log (r_runs P s os) = r_log s).
  { clear os. induction os as [|o os IH]; intros s E; [auto|]. cbn [r_runs fold_left].
    assert (E' : r_phase (r_step P s o) = RExit /\ r_log (r_step P s o) = r_log s) by (destruct o; cbn; [rewrite E|]; auto).
    destruct E' as [E1 E2]. destruct (IH _ E1) as [A B]. split; [exact A|]. unfold r_runs in B. now rewrite B. }
  intros s R L N. destruct os as [|[t|] [|[u|] os] ]; cbn in L; try lia; try (exfalso; apply N; cbn; auto; fail).
  cbn [r_runs fold_left].
  destruct (r_phase s) eqn:Ph.
  - assert (E : r_step P s (RStep t) = {| r_phase := RExit; r_run := r_run s; r_next := r_next s; r_log := r_log s |}).
    { cbn. now rewrite Ph, R. }
    rewrite E. destruct (X (RStep u :: os) {| r_phase := RExit; r_run := r_run s; r_next := r_next s; r_log := r_log s |} eq_refl) as [A B].
    cbn [r_runs fold_left] in A, B. rewrite A, B. cbn. auto.
  - set (s1 := r_step P s (RStep t)).
    assert (E : r_phase s1 = RHead /\ r_run s1 = false /\ length (r_log s1) = S (length (r_log s))).
    { unfold s1. cbn. rewrite Ph, R, andb_false_r. cbn. rewrite app_length. cbn. repeat split. lia. }
    destruct E as (E1 & E2 & E3). clearbody s1.
    assert (F : r_phase (r_step P s1 (RStep u)) = RExit /\ r_log (r_step P s1 (RStep u)) = r_log s1) by (cbn; rewrite E1, E2; auto).
    destruct F as [F1 F2]. destruct (X os _ F1) as [A B]. unfold r_runs in A, B. rewrite A, B, F2. split; [reflexivity|lia].
  - destruct (X (RStep t :: RStep u :: os) s Ph) as [A B]. cbn [r_runs fold_left] in A, B. rewrite A, B. auto.
Qed.
End RT.
Lemma set_back P s ts : r_phase s = RSpin -> r_run s = true -> (forall t, In t ts -> t < r_next s) -> r_runs P s (at_times ts) = s.
Proof.
  intros Ph R. induction ts as [|t ts IH]; intros H; [reflexivity|]. cbn [at_times map r_runs fold_left].
  assert (E : r_step P s (RStep t) = s).
  { cbn. rewrite Ph, R. rewrite (proj2 (Z.ltb_lt t (r_next s))) by (apply H; now left). reflexivity. }
  rewrite E. apply IH. intros u Hu. apply H. now right.
Qed.

(** ** A topic of ROS1 *)
Definition last_time (l : list (Z * list nat * bool)) : option Z := match rev l with e :: _ => Some (fst (fst e)) | [] => None end.
Definition good_log (l : list (Z * list nat * bool)) : Prop :=
  forall i t ms, nth_error l i = Some (t, ms, true) -> ms <> [] /\
    forall j t' ms' r', i = S j -> nth_error l j = Some (t', ms', r') -> t <> t'.
Definition qinv (s : qt) : Prop :=
  (q_first s = true -> q_log s = []) /\ (q_phase s = QTime -> q_run s = true -> q_queue s <> []) /\
  match q_phase s with QFirst => q_first s = true | QWait | QTime => q_first s = false | _ => True end /\
  (q_log s = [] \/ last_time (q_log s) = Some (q_old s)) /\ good_log (q_log s).
Lemma last_snoc l e : last_time (l ++ [e]) = Some (fst (fst e)).
Proof. unfold last_time. now rewrite rev_app_distr. Qed.
Lemma last_nth l t ms r j : S j = length l -> nth_error l j = Some (t, ms, r) -> last_time l = Some t.
Proof.
  intros L. destruct (@exists_last _ l) as (l' & e & E); [intros ->; discriminate|]. subst l. rewrite app_length in L. cbn in L.
  rewrite nth_error_app2 by lia. replace (j - length l')%nat with 0%nat by lia. cbn. intros H. inversion H. now rewrite last_snoc.
Qed.
Lemma good_snoc l t ms r old : good_log l -> (l = [] \/ last_time l = Some old) -> (r = true -> ms <> [] /\ t <> old) ->
  good_log (l ++ [(t, ms, r)]).
Proof.
  intros G D H i t' ms' E. destruct (Nat.lt_ge_cases i (length l)) as [L|L].
  - rewrite nth_error_app1 in E by exact L. destruct (G _ _ _ E) as [G1 G2]. split; [exact G1|]. intros j u ns q -> F.
    rewrite nth_error_app1 in F by lia. eapply G2; eauto.
  - rewrite nth_error_app2 in E by exact L. destruct (i - length l)%nat eqn:Q; [|destruct n; discriminate]. cbn in E. inversion E; subst.
    destruct (H eq_refl) as [H1 H2]. split; [exact H1|]. intros j u ns q -> F. rewrite nth_error_app1 in F by lia.
    destruct D as [->|D]; [destruct j; discriminate|]. assert (Lj : S j = length l) by lia. rewrite (last_nth _ _ _ _ _ Lj F) in D.
    inversion D; subst. exact H2.
Qed.
Ltac four := do 4 (split; [solve [auto | discriminate | intros; discriminate | intros; congruence]|]).
Lemma qinv_step s o : qinv s -> qinv (q_step s o).
Proof.
  intros (A & B & C & D & E). destruct o as [| |t|m]; cbn [q_step].
  - destruct (q_phase s) eqn:Ph.
    + destruct (q_run s) eqn:R; [|unfold qinv, q_goto; cbn; four; auto].
      destruct (q_first s) eqn:F; unfold qinv, q_goto; cbn; rewrite ?F; four; auto.
    + destruct ((q_old s =? q_new s) && q_run s) eqn:W.
      * unfold qinv, q_read. cbn. rewrite Ph. four; auto.
      * unfold qinv. cbn. rewrite (A C). four. intros [|i] t ms H; discriminate.
    + destruct (match q_queue s with [] => true | _ => false end && q_run s) eqn:W.
      * unfold qinv. rewrite Ph. four; auto.
      * unfold qinv, q_goto; cbn. split; [auto|]. split; [|auto].
        intros _ R. rewrite R, andb_true_r in W. destruct (q_queue s); discriminate.
    + destruct ((q_old s =? q_new s) && q_run s) eqn:W.
      * unfold qinv, q_read. cbn. rewrite Ph. auto.
      * unfold qinv. cbn. rewrite C. split; [discriminate|]. split; [discriminate|]. split; [exact I|].
        split; [right; apply last_snoc|]. apply (good_snoc _ _ _ _ (q_old s)); auto. intros R. split; [auto|].
        rewrite R, andb_true_r in W. apply Z.eqb_neq in W. auto.
    + unfold qinv. rewrite Ph. four; auto.
  - unfold qinv. cbn. split; [auto|]. split; [discriminate|]. auto.
  - unfold qinv. cbn. auto.
  - unfold qinv. cbn. split; [auto|]. split; [intros _ _ H; destruct (q_queue s); discriminate|]. auto.
Qed.
Lemma qinv_runs os : forall s, qinv s -> qinv (q_runs s os).
Proof. induction os as [|o os IH]; intros s H; [exact H|]. apply IH. now apply qinv_step. Qed.
Lemma qinv0 f t0 : qinv (q_start f t0).
Proof. unfold qinv. cbn. four. intros [|i] t ms H; discriminate. Qed.
Lemma q_fresh f t0 os i t ms : nth_error (q_log (q_runs (q_start f t0) os)) i = Some (t, ms, true) -> ms <> [] /\
  forall j t' ms' r', i = S j -> nth_error (q_log (q_runs (q_start f t0) os)) j = Some (t', ms', r') -> t <> t'.
Proof. destruct (qinv_runs os _ (qinv0 f t0)) as (_ & _ & _ & _ & G). apply G. Qed.
Lemma handled_snoc l e : handled (l ++ [e]) = handled l ++ snd (fst e).
Proof. unfold handled. rewrite map_app, concat_app. cbn. now rewrite app_nil_r. Qed.
Lemma q_all_handled os : forall s, handled (q_log (q_runs s os)) ++ q_queue (q_runs s os) = handled (q_log s) ++ q_queue s ++ messages os.
Proof.
  induction os as [|o os IH]; intros s; cbn [q_runs fold_left messages]; [now rewrite app_nil_r|].
  unfold q_runs in IH. rewrite IH. destruct o as [| |t|m]; cbn [messages q_step]; try reflexivity.
  - destruct (q_phase s); try reflexivity.
    + destruct (q_run s), (q_first s); reflexivity.
    + destruct ((q_old s =? q_new s) && q_run s); reflexivity.
    + destruct (match q_queue s with [] => true | _ => false end && q_run s); reflexivity.
    + destruct ((q_old s =? q_new s) && q_run s); [reflexivity|]. cbn [q_log q_queue]. rewrite handled_snoc. cbn [fst snd app]. now rewrite <- app_assoc.
  - cbn [q_log q_queue]. now rewrite <- app_assoc.
Qed.
Lemma q_messages f t0 os : handled (q_log (q_runs (q_start f t0) os)) ++ q_queue (q_runs (q_start f t0) os) = messages os.
Proof. now rewrite q_all_handled. Qed.
(** Stop. *)
Definition rank (p : qphase) : nat := match p with QFirst => 4 | QWait => 3 | QTime => 2 | QHead => 1 | QExit => 0 end.
Definition may (p : qphase) : nat := match p with QFirst | QWait | QTime => 1 | _ => 0 end.
Lemma q_stop_ends os : forall s, q_run s = false -> q_run (q_runs s os) = false /\
  (rank (q_phase (q_runs s os)) <= rank (q_phase s) - steps os)%nat /\
  (length (q_log (q_runs s os)) + may (q_phase (q_runs s os)) <= length (q_log s) + may (q_phase s))%nat.
Proof.
  induction os as [|o os IH]; intros s R; cbn [q_runs fold_left steps]; [repeat split; auto; lia|].
  assert (G : q_run (q_step s o) = false /\ (rank (q_phase (q_step s o)) <= rank (q_phase s) - steps [o])%nat /\
    (length (q_log (q_step s o)) + may (q_phase (q_step s o)) <= length (q_log s) + may (q_phase s))%nat).
  { destruct o as [| |t|m]; cbn [q_step steps]; try (cbn; repeat split; auto; lia).
    destruct (q_phase s) eqn:Ph; rewrite ?R, ?andb_false_r; cbn; rewrite ?app_length, ?Ph; cbn; repeat split; auto; lia. }
  destruct G as (G1 & G2 & G3). destruct (IH _ G1) as (I1 & I2 & I3). unfold q_runs in *. split; [exact I1|].
  split; [|lia]. destruct o; cbn [steps] in *; lia.
Qed.
Lemma q_stopped os s : (4 <= steps os)%nat -> q_phase (q_runs s (QStop :: os)) = QExit /\
  (length (q_log (q_runs s (QStop :: os))) <= S (length (q_log s)))%nat.
Proof.
  intros L. cbn [q_runs fold_left]. destruct (q_stop_ends os (q_step s QStop) eq_refl) as (_ & A & B). unfold q_runs in *.
  assert (X : (rank (q_phase s) <= 4 /\ may (q_phase s) <= 1)%nat) by (destruct (q_phase s); cbn; lia).
  change (q_phase (q_step s QStop)) with (q_phase s) in A, B. change (q_log (q_step s QStop)) with (q_log s) in B.
  split; [|lia]. destruct (q_phase (fold_left q_step os (q_step s QStop))); cbn in A; try lia. reflexivity.
Qed.
(** A patient simulator. *)
Definition waiting (t : Z) (log : list (Z * list nat * bool)) : qt :=
  {| q_phase := QWait; q_run := true; q_first := false; q_now := t; q_old := t; q_new := t; q_queue := []; q_log := log |}.
Lemma wait_steps k t log : q_runs (waiting t log) (repeat QStep k) = waiting t log.
Proof. induction k; [reflexivity|exact IHk]. Qed.
Ltac crunch := cbv beta iota zeta delta [q_step q_goto q_read waiting q_start q_phase q_run q_first q_now q_old q_new q_queue q_log app andb].
Lemma sim_round k t u m log : u <> t -> (4 <= k)%nat ->
  q_runs (waiting t log) ([QNow u; QMsg m] ++ repeat QStep k) = waiting u (log ++ [(u, [m], true)]).
Proof.
  intros N L. replace k with (4 + (k - 4))%nat by lia. rewrite repeat_app. cbn [repeat app]. cbn [q_runs fold_left].
  crunch. rewrite Z.eqb_refl. crunch.
  rewrite (proj2 (Z.eqb_neq t u)) by auto. crunch.
  apply wait_steps.
Qed.
Lemma sim_all k l : (4 <= k)%nat -> forall t log, moving t l -> exists u,
  q_runs (waiting t log) (simulator k l) = waiting u (log ++ map (fun x => (fst x, [snd x], true)) l).
Proof.
  intros L. induction l as [|[u m] l IH]; intros t log M; [exists t; now rewrite app_nil_r|].
  destruct M as [M1 M2]. destruct (IH u (log ++ [(u, [m], true)]) M2) as [v E]. exists v. cbn [simulator map concat fst snd] in *.
  unfold q_runs in *. rewrite fold_left_app. pose proof (sim_round k t u m log M1 L) as S. unfold q_runs in S. cbn [fst snd].
  rewrite S. unfold simulator in E. rewrite E. now rewrite <- app_assoc.
Qed.
Lemma first_wait t0 t1 : t1 <> t0 -> q_runs (q_start true t0) [QNow t1; QStep; QStep; QStep] = waiting t1 [].
Proof.
  intros N. cbn [q_runs fold_left]. crunch. rewrite Z.eqb_refl. crunch. rewrite (proj2 (Z.eqb_neq t0 t1)) by auto. reflexivity.
Qed.
Lemma one_cycle_each k t0 t1 l : (4 <= k)%nat -> t1 <> t0 -> moving t1 l ->
  q_log (q_runs (q_start true t0) (QNow t1 :: repeat QStep k ++ simulator k l)) = map (fun x => (fst x, [snd x], true)) l.
Proof.
  intros L N M. destruct (sim_all k l L t1 [] M) as [u E].
  replace (QNow t1 :: repeat QStep k ++ simulator k l) with (([QNow t1; QStep; QStep; QStep] ++ repeat QStep (k - 3)) ++ simulator k l).
  2: { replace (repeat QStep k) with (repeat QStep (3 + (k - 3))) by (f_equal; lia). rewrite repeat_app. reflexivity. }
  unfold q_runs in *. rewrite !fold_left_app. pose proof (first_wait t0 t1 N) as F. unfold q_runs in F. rewrite F.
  pose proof (wait_steps (k - 3) t1 []) as W. unfold q_runs in W. rewrite W, E. reflexivity.
Qed.
