(** A fault in a time domain and the safety system. *)
From Coq Require Import List Lia ZArith.
From Verif Require Import Prelude SafetyModel SafetySpec SafetyProofs CtrlModel CtrlSpec CtrlProofs NetModel NetSpec.
Import ListNotations.

Section Reaction.
  Context {W : Type} (brun : nat -> W -> W * bres) (h : heap).

  (** The run of the whole seen by the safety system. *)
  Lemma xruns_sruns os : forall x x' log, xruns h brun x os = Ok (x', log) ->
    exists ss, sruns h (x_s x) ss = Ok (x_s x', log).
  Proof.
    induction os as [|o os IH]; intros x x' log E; cbn [xruns] in E.
    - injection E as <- <-. exists []. reflexivity.
    - destruct (xstep h brun x o) as [[x1 l1]| |] eqn:S; cbn [bind fst snd] in E; try discriminate.
      destruct (xruns h brun x1 os) as [[x2 l2]| |] eqn:R; cbn [bind fst snd] in E; try discriminate.
      injection E as <- <-. destruct (IH _ _ _ R) as [ss Hs].
      assert (Q : (x_s x1 = x_s x /\ l1 = []) \/ exists so, sstep h (x_s x) so = Ok (x_s x1, l1)).
      { destruct o as [t|e p|env acts]; cbn [xstep] in S.
        - destruct (td_run brun _ (x_w x)) as [w r]. cbn [fst snd] in S.
          destruct r; destruct (ts_event t) as [e|]; try discriminate; try (injection S as <- <-; left; split; reflexivity).
          right. exists (Trigger e false). cbn [sstep].
          destruct (triggerEvent h (x_s x) e false); cbn [bind] in *; try discriminate. injection S as <- <-. reflexivity.
        - right. exists (Trigger e p). cbn [sstep].
          destruct (triggerEvent h (x_s x) e p); cbn [bind] in *; try discriminate. injection S as <- <-. reflexivity.
        - right. exists (Cycle env acts). cbn [sstep].
          destruct (run h (x_s x) env acts) as [[s l]| |]; cbn [bind fst snd] in *; try discriminate. injection S as <- <-. reflexivity. }
      destruct Q as [[E1 ->]|[so Hso]].
      + exists ss. rewrite <- E1. exact Hs.
      + exists (so :: ss). cbn [sruns]. rewrite Hso. cbn [bind fst snd]. rewrite Hs. reflexivity.
  Qed.

  (** The levels stay in a closed set. *)
  Section Closed.
    Context (L : lref -> Prop) (HL : forall l e pr d, L l -> leads h l e pr d -> L d).
    Definition inside (s : sys) : Prop := (forall c, cur s = Some c -> L c) /\ (forall n, nxt s = Some n -> L n).
    Lemma trigger_inside s e p s' : inside s -> triggerEvent h s e p = Ok s' -> inside s'.
    Proof.
      intros [Hc Hn] E. unfold triggerEvent in E. destruct (cur s) as [c|] eqn:C; [|discriminate].
      destruct (getDestLevelForEvent (h c) e p) as [d|] eqn:D.
      - apply getDest_leads in D.
        assert (Ld : L d) by (exact (HL c e p d (Hc c eq_refl) D)).
        destruct (nxt s) as [n|] eqn:N;
          repeat match type of E with context [if ?b then _ else _] => destruct b end;
          try discriminate; injection E as <-; split; cbn; intros x Hx; try (injection Hx as <-); auto;
          try (rewrite C in Hx; injection Hx as <-; auto); try (rewrite N in Hx; injection Hx as <-; auto).
      - injection E as <-. split; [rewrite C|]; auto.
    Qed.
    Lemma adopt_inside s : inside s -> inside (adopt s).
    Proof. intros [Hc Hn]. unfold adopt. destruct (nxt s) as [n|] eqn:N; split; cbn; auto; try (intros x Hx; rewrite N in Hx; discriminate). Qed.
    Lemma triggers_inside ts : forall s s' log, inside s -> triggers h s ts = Ok (s', log) -> inside s'.
    Proof.
      induction ts as [|[e p] ts IH]; intros s s' log I E; cbn in E; [injection E as <- <-; exact I|].
      destruct (triggerEvent h s e p) as [s1| |] eqn:T; cbn in E; try discriminate.
      destruct (triggers h s1 ts) as [[s2 l2]| |] eqn:R; cbn in E; try discriminate.
      injection E as <- <-. eapply IH; [|exact R]. eapply trigger_inside; eauto.
    Qed.
    Lemma checkInputs_inside env ias : forall s s' log, inside s -> checkInputs h s env ias = Ok (s', log) -> inside s'.
    Proof.
      induction ias as [|[ia|] ias IH]; intros s s' log I E; cbn in E; [injection E as <- <-; exact I| |eauto].
      destruct (ia_fire ia (env (ia_input ia))) as [e|].
      - destruct (triggerEvent h s e true) as [s1| |] eqn:T; cbn in E; try discriminate.
        destruct (checkInputs h s1 env ias) as [[s2 l2]| |] eqn:R; cbn in E; try discriminate.
        injection E as <- <-. eapply IH; [|exact R]. eapply trigger_inside; eauto.
      - destruct (checkInputs h s env ias) as [[s2 l2]| |] eqn:R; cbn in E; try discriminate.
        injection E as <- <-. eapply IH; [|exact R]. exact I.
    Qed.
    Lemma run_inside s env acts s' log : inside s -> run h s env acts = Ok (s', log) -> inside s'.
    Proof.
      intros I E. pose proof (adopt_inside s I) as IA. unfold run in E. set (a := adopt s) in *.
      destruct (cur a) as [l|] eqn:C; [|injection E as <- <-; exact IA].
      set (a1 := {| cur := Some l; nxt := nxt a; nact := _ |}) in E.
      assert (I1 : inside a1) by (destruct IA as [A B]; split; cbn; [rewrite <- C; exact A|exact B]).
      destruct (checkInputs h a1 env (lin (h l))) as [[s1 l1]| |] eqn:R1; cbn [bind fst snd] in E; try discriminate.
      pose proof (checkInputs_inside _ _ _ _ _ I1 R1) as I2.
      destruct (lact (h l)).
      - destruct (triggers h s1 acts) as [[s2 l2]| |] eqn:R2; cbn [bind fst snd] in E; try discriminate.
        injection E as <- _. apply adopt_inside. eapply triggers_inside; eauto.
      - cbn [bind fst snd] in E. injection E as <- _. now apply adopt_inside.
    Qed.
    Lemma sruns_inside ss : forall s s' log, inside s -> sruns h s ss = Ok (s', log) -> inside s'.
    Proof.
      induction ss as [|o ss IH]; intros s s' log I E; cbn [sruns] in E; [injection E as <- <-; exact I|].
      destruct (sstep h s o) as [[s1 l1]| |] eqn:S; cbn [bind fst snd] in E; try discriminate.
      destruct (sruns h s1 ss) as [[s2 l2]| |] eqn:R; cbn [bind fst snd] in E; try discriminate.
      injection E as <- <-. eapply IH; [|exact R].
      destruct o as [e p|env acts]; cbn [sstep] in S.
      - destruct (triggerEvent h s e p) eqn:T; cbn [bind] in S; try discriminate. injection S as <- <-. eapply trigger_inside; eauto.
      - eapply run_inside; eauto.
    Qed.
  End Closed.

  Lemma xruns_triggers os : forall x x' log, quiet os -> xruns h brun x os = Ok (x', log) ->
    exists ts, triggers h (x_s x) ts = Ok (x_s x', log) /\ log = map (fun t => ETrig (fst t) (snd t)) ts.
  Proof.
    induction os as [|o os IH]; intros x x' log Q E; cbn [xruns] in E.
    - injection E as <- <-. exists []. split; reflexivity.
    - destruct (xstep h brun x o) as [[x1 l1]| |] eqn:S; cbn [bind fst snd] in E; try discriminate.
      destruct (xruns h brun x1 os) as [[x2 l2]| |] eqn:R; cbn [bind fst snd] in E; try discriminate.
      injection E as <- <-.
      destruct (IH x1 x2 l2) as (ts & Ht & El); [intros env acts H; exact (Q env acts (or_intror H))|exact R|].
      assert (D : (x_s x1 = x_s x /\ l1 = []) \/ exists e p, triggerEvent h (x_s x) e p = Ok (x_s x1) /\ l1 = [ETrig e p]).
      { destruct o as [t|e p|env acts]; cbn [xstep] in S.
        - destruct (td_run brun _ (x_w x)) as [w r]. cbn [fst snd] in S.
          destruct r; destruct (ts_event t) as [e|]; try discriminate; try (injection S as <- <-; left; split; reflexivity).
          right. exists e, false. destruct (triggerEvent h (x_s x) e false); cbn [bind] in *; try discriminate. injection S as <- <-. split; reflexivity.
        - right. exists e, p. destruct (triggerEvent h (x_s x) e p); cbn [bind] in *; try discriminate. injection S as <- <-. split; reflexivity.
        - exfalso. apply (Q env acts). now left. }
      destruct D as [[E1 ->]|(e & p & T & ->)].
      + exists ts. rewrite <- E1. split; [exact Ht|exact El].
      + exists ((e, p) :: ts). cbn [triggers map fst snd app]. rewrite T. cbn [bind]. rewrite Ht. cbn [bind fst snd]. rewrite <- El. split; reflexivity.
  Qed.
  Lemma xruns_app os1 : forall x os2 x' log, xruns h brun x (os1 ++ os2) = Ok (x', log) ->
    exists x1 l1 l2, xruns h brun x os1 = Ok (x1, l1) /\ xruns h brun x1 os2 = Ok (x', l2) /\ log = l1 ++ l2.
  Proof.
    induction os1 as [|o os1 IH]; intros x os2 x' log E; cbn [app xruns] in *.
    - exists x, [], log. repeat split. exact E.
    - destruct (xstep h brun x o) as [[x1 l1]| |]; cbn [bind fst snd] in *; try discriminate.
      destruct (xruns h brun x1 (os1 ++ os2)) as [[x2 l2]| |] eqn:R; cbn [bind fst snd] in E; try discriminate.
      injection E as <- <-. destruct (IH _ _ _ _ R) as (y & m1 & m2 & H1 & H2 & ->).
      exists y, (l1 ++ m1), m2. rewrite H1. cbn [bind fst snd]. repeat split; [exact H2|apply app_assoc].
  Qed.

  (** A fault known to the time domain triggers its event. *)
  Lemma fault_triggers t x e : faults brun t (x_w x) -> ts_running t = true -> ts_event t = Some e ->
    forall x' log, xstep h brun x (XDomain t) = Ok (x', log) -> log = [ETrig e false].
  Proof.
    intros (l1 & b & l2 & w1 & w2 & r & Hb & H1 & H2 & Hr) Hrun He x' log E. cbn [xstep] in E.
    rewrite (td_fault brun _ _ l1 b l2 w1 w2 r) in E; cbn [tdrunning tdblocks tdsafety]; auto; [|destruct Hr; subst; discriminate].
    rewrite He in E. destruct Hr as [-> | ->]; cbn [fst snd] in E;
      (destruct (triggerEvent h (x_s x) e false); cbn [bind] in E; try discriminate; injection E as _ <-; reflexivity).
  Qed.
End Reaction.

Lemma fault_reaches_outputs {W : Type} (brun : nat -> W -> W * bres) p n0 s0 w0 os0 env0 acts0 x log0 c os1 t os2 x1 log1 x2 log2 e d env acts :
  setProperties p n0 = Ok (Some s0) ->
  (forall l, pentry p = Some l -> In l (plevels p)) ->
  (forall l e pr d, In l (plevels p) -> leads (pheap p) l e pr d -> In d (plevels p)) ->
  xruns (pheap p) brun {| x_w := w0; x_s := s0 |} (os0 ++ [XSafety env0 acts0]) = Ok (x, log0) -> cur (x_s x) = Some c ->
  quiet (os1 ++ XDomain t :: os2) ->
  xruns (pheap p) brun x os1 = Ok (x1, log1) -> faults brun t (x_w x1) -> ts_running t = true -> ts_event t = Some e ->
  leads (pheap p) c e false d ->
  xruns (pheap p) brun x1 (XDomain t :: os2) = Ok (x2, log2) ->
  (forall e' p', In (ETrig e' p') (log1 ++ log2) -> ~ leads (pheap p) c e' p' c) ->
  exists x3 log3 n, xstep (pheap p) brun x2 (XSafety env acts) = Ok (x3, log3) /\
    In (EExec n) log3 /\ (lid (pheap p n) <= lid (pheap p d))%Z /\ In n (plevels p) /\
    (exists e' p', In (ETrig e' p') (log1 ++ log2) /\ leads (pheap p) c e' p' n) /\
    (forall o, In o (pcritOut p) -> driven log3 o /\ exists a, In (Some a) (lout (pheap p n)) /\ oa_output a = o /\ In (ESet (oa_id a) o) log3).
Proof.
  intros HP Hen Hcl R0 Hc Q R1 HF Hrun Hev Hl R2 Hno. set (h := pheap p) in *.
  assert (Hv : verify p = Ok true).
  { unfold setProperties in HP. destruct (verify p) as [[|]| |]; cbn in HP; try discriminate. reflexivity. }
  destruct (setProperties_init p n0 s0 HP) as (en & Een & Sim0). fold h in Sim0.
  assert (I0 : inside (fun l => In l (plevels p)) s0).
  { unfold setProperties in HP. rewrite Hv in HP. cbn in HP. rewrite Een in HP. injection HP as <-.
    split; cbn; intros y Hy; injection Hy as <-; auto. }
  destruct (xruns_sruns _ _ _ _ _ _ R0) as [ss0 HS0]. cbn [x_s] in HS0.
  pose proof (sruns_inside h (fun l => In l (plevels p)) Hcl _ _ _ _ I0 HS0) as Ix.
  destruct (sruns_reach h ss0 s0 en 0 [] (x_s x) log0 Sim0 HS0) as (c' & m & cand & Simx).
  assert (Hn : nxt (x_s x) = Some c).
  { destruct (xruns_app brun h _ _ _ _ _ R0) as (y & m1 & m2 & Hy1 & Hy & _). cbn [xruns xstep] in Hy.
    destruct (run h (x_s y) env0 acts0) as [[s' lg]| |] eqn:RR; cbn [bind fst snd] in Hy; try discriminate.
    injection Hy as <- _. cbn [x_s] in *.
    destruct (xruns_sruns _ _ _ _ _ _ Hy1) as [ss1 HS1]. cbn [x_s] in HS1.
    destruct (sruns_reach h ss1 s0 en 0 [] (x_s y) m1 Sim0 HS1) as (c2 & k2 & cand2 & (_ & ny & Ny & _)).
    rewrite <- (run_next h (x_s y) ny env0 acts0 s' lg Ny RR). exact Hc. }
  assert (RA : xruns h brun x (os1 ++ XDomain t :: os2) = Ok (x2, log1 ++ log2)).
  { clear -R1 R2. revert x log1 R1. induction os1 as [|o os1 IH]; intros x log1 R1; cbn [xruns app] in *.
    - injection R1 as <- <-. exact R2.
    - destruct (xstep h brun x o) as [[y l]| |]; cbn [bind fst snd] in *; try discriminate.
      destruct (xruns h brun y os1) as [[z k]| |] eqn:E; cbn [bind fst snd] in R1; try discriminate.
      injection R1 as <- <-. rewrite (IH y k E). cbn [bind fst snd]. now rewrite app_assoc. }
  destruct (xruns_triggers brun h _ _ _ _ Q RA) as (ts & Ht & El).
  assert (Hin : In (ETrig e false) (log1 ++ log2)).
  { apply in_or_app. right. cbn [xruns] in R2.
    destruct (xstep h brun x1 (XDomain t)) as [[y l]| |] eqn:S; cbn [bind fst snd] in R2; try discriminate.
    destruct (xruns h brun y os2) as [[z k]| |]; cbn [bind fst snd] in R2; try discriminate.
    injection R2 as _ <-. rewrite (fault_triggers brun h t x1 e HF Hrun Hev y l S). now left. }
  assert (Hts : forall e' p', In (ETrig e' p') (log1 ++ log2) <-> In (e', p') ts).
  { intros e' p'. rewrite El, in_map_iff. split.
    - intros ((e2 & p2) & E2 & H2). cbn in E2. injection E2 as -> ->. exact H2.
    - intros H. exists (e', p'). split; [reflexivity|exact H]. }
  destruct (triggers_lowest h (x_s x) c ts Hc Hn) as (s' & lg & n & T & Cn & Nn & _ & Hlow).
  rewrite Ht in T. injection T as <- <-.
  destruct Hlow as [Dn Low].
  { intros (e' & p' & H1 & H2). apply (Hno e' p'); [now apply Hts|exact H2]. }
  { exists d. exists e, false. split; [now apply Hts|exact Hl]. }
  assert (Hd : dest_of_some h c ts d) by (exists e, false; split; [now apply Hts|exact Hl]).
  destruct (triggers_sim h ts (x_s x) c' m cand (x_s x2) (log1 ++ log2) Simx Ht) as (cand' & Sim2 & _).
  destruct (run_sim h (x_s x2) c' m cand' env acts Sim2) as (s3 & log3 & c3 & n3 & RR & _).
  assert (Cc : In c (plevels p)) by (exact (proj1 Ix c Hc)).
  assert (Cnn : In n (plevels p)) by (destruct Dn as (e' & p' & _ & L); exact (Hcl c e' p' n Cc L)).
  exists {| x_w := x_w x2; x_s := s3 |}, log3, n.
  cbn [xstep]. rewrite RR. cbn [bind fst snd].
  split; [reflexivity|]. split.
  { destruct (run_begins h (x_s x2) env acts s3 log3 n Nn RR) as [k ->]. now left. }
  split; [exact (Low d Hd)|]. split; [exact Cnn|]. split.
  { destruct Dn as (e' & p' & H1 & H2). exists e', p'. split; [now apply Hts|exact H2]. }
  pose proof (proj1 (verify_accepts p) Hv) as [_ Hcov]. destruct (Hcov n Cnn) as [_ Cov].
  intros o Ho. split.
  - destruct (cycle_covers p (x_s x2) n env acts s3 log3 Cov Nn RR) as [H1 _]. exact (H1 o Ho).
  - destruct (proj1 Cov o Ho) as (a & Ha & Ea). exists a. split; [exact Ha|]. split; [exact Ea|].
    destruct (run_sequence h (x_s x2) n env acts s3 log3 Nn RR) as (k & Hseq).
    apply filter_in. rewrite Hseq. rewrite !in_app_iff. subst o.
    assert (HH : In (ESet (oa_id a) (oa_output a)) (map (fun a => ESet (oa_id a) (oa_output a)) (non_null (lout (h n))))).
    { apply in_map_iff. exists a. split; [reflexivity|]. unfold non_null. apply in_flat_map. exists (Some a). split; [exact Ha|now left]. }
    tauto.
Qed.

(** An exception of another type leaves the time domain and nothing is triggered. *)
Lemma other_escapes {W : Type} (brun : nat -> W -> W * bres) h x t l1 b l2 w1 w2 :
  ts_running t = true -> ts_blocks t = l1 ++ b :: l2 -> CtrlSpec.all_run brun l1 (x_w x) w1 -> brun b w1 = (w2, BOther) ->
  xstep h brun x (XDomain t) = Fault.
Proof.
  intros Hr Hb H1 H2. cbn [xstep].
  rewrite (td_fault brun _ _ l1 b l2 w1 w2 BOther); cbn [tdrunning tdblocks tdsafety]; auto; try discriminate.
Qed.
(** A fault without an event registered in the current level (or with a private one) changes nothing. *)
Lemma unregistered_ignored {W : Type} (brun : nat -> W -> W * bres) h x t e c :
  faults brun t (x_w x) -> ts_running t = true -> ts_event t = Some e -> cur (x_s x) = Some c -> leads_nowhere h c e false ->
  exists x', xstep h brun x (XDomain t) = Ok (x', [ETrig e false]) /\ x_s x' = x_s x.
Proof.
  intros (l1 & b & l2 & w1 & w2 & r & Hb & H1 & H2 & Hr) Hrun He Hc Hl. cbn [xstep].
  rewrite (td_fault brun _ _ l1 b l2 w1 w2 r); cbn [tdrunning tdblocks tdsafety]; auto; [|destruct Hr; subst; discriminate].
  rewrite He. cbn [fst snd]. rewrite (trigger_nowhere h (x_s x) c e false Hc Hl).
  exists {| x_w := w2; x_s := x_s x |}. destruct Hr as [-> | ->]; split; reflexivity.
Qed.
