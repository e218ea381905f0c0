(** * The blocks pass the checks, or not *)
From Coq Require Import List String Bool Arith Lia.
From Verif Require Import RaceModel RaceSpec RaceProofs RaceProofs2.
Import ListNotations.
Local Open Scope string_scope.
Local Open Scope list_scope.
Local Open Scope nat_scope.

(** ** No deadlock *)

Definition fine (rb h : list obj) (c : cmd) : Prop :=
  flow rb h c = Some None \/ flow rb h c = Some (Some h).

Lemma fine_sq rb h a b : fine rb h a -> fine rb h b -> fine rb h (Sq a b).
Proof. unfold fine. cbn [flow]. intros [E|E] F; rewrite E; auto. Qed.
Lemma fine_alt rb h a b : fine rb h a -> fine rb h b -> fine rb h (Alt a b).
Proof.
  unfold fine. cbn [flow]. intros [E|E] [F|F]; rewrite E, F; cbn; auto. rewrite leq_refl. auto.
Qed.
Lemma fine_rep rb h a : fine rb h a -> fine rb h (Rep a).
Proof. unfold fine. cbn [flow]. intros [-> | ->]; rewrite ?leq_refl; auto. Qed.
Lemma fine_skip rb h : fine rb h Skip.
Proof. now right. Qed.
Lemma fine_rd rb h x : fine rb h (Rd x).
Proof. now right. Qed.
Lemma fine_wr rb h x : fine rb h (Wr x).
Proof. now right. Qed.
Lemma fine_throw h : fine h h Throw.
Proof. left. cbn. now rewrite leq_refl. Qed.
Lemma fine_guard m h a : above m h = true -> fine (m :: h) (m :: h) a -> fine h h (Guard m a).
Proof.
  unfold fine. cbn [flow]. intros ->. rewrite leq_refl. cbn. intros [-> | ->]; auto.
  rewrite leq_refl. auto.
Qed.
Lemma fine_seq rb h l : (forall c, In c l -> fine rb h c) -> fine rb h (seq l).
Proof. apply flow_seq. Qed.
(** lock, a body, unlock, the rest *)
Lemma fine_lock rb m h l k : above m h = true ->
  (forall c, In c l -> flow rb (m :: h) c = Some (Some (m :: h))) -> fine rb h (seq k) ->
  fine rb h (seq (Lk m :: l ++ Un m :: k)).
Proof.
  intros A F K. cbn [seq fold_right app]. unfold fine. cbn [flow]. rewrite A.
  change (fold_right Sq Skip (l ++ Un m :: k)) with (seq (l ++ Un m :: k)).
  assert (E : flow rb (m :: h) (seq (l ++ Un m :: k)) = flow rb h (seq k)).
  { induction l as [|c l IH].
    - cbn [app seq fold_right flow]. now rewrite Nat.eqb_refl, A.
    - cbn [app seq fold_right flow]. rewrite (F c (or_introl eq_refl)). apply IH.
      intros; apply F; now right. }
  rewrite E. exact K.
Qed.

Lemma above_nil m : above m [] = true.
Proof. reflexivity. Qed.
Lemma above_ss o : o <> 0 -> above 0 [o] = true.
Proof. intros N. unfold above, rank. cbn. destruct (Nat.eqb_spec o 0); [congruence|reflexivity]. Qed.

Lemma fine_inv_ h src : fine h h (in_v src).
Proof. destruct src; [apply fine_rd|apply fine_throw]. Qed.
Lemma fine_int h src : fine h h (in_t src).
Proof. destruct src; [apply fine_rd|apply fine_throw]. Qed.

Ltac eachin := let c := fresh "c" in let Q := fresh in intros c Q; cbn [In] in Q;
  repeat (destruct Q as [<- | Q]; [|]); [.. | destruct Q].

Lemma fine_trigger h : above 0 h = true -> fine h h ss_trigger.
Proof.
  intros A. unfold ss_trigger.
  apply fine_sq; [apply fine_rd|]. apply fine_alt; [apply fine_throw|].
  apply fine_sq; [apply fine_rd|]. apply fine_alt; [|apply fine_rd].
  apply (fine_lock h 0 h [Rd nxt; Rd cur; Alt (Sq (Wr nxt) (Rd nxt))
                             (Sq (Rd nxt) (Alt (Sq (Wr nxt) (Rd nxt)) Skip))] [Rd cur; Rd nxt]).
  - exact A.
  - eachin; cbn [flow hjoin]; rewrite ?leq_refl; cbn [hjoin]; rewrite ?leq_refl; reflexivity.
  - now right.
Qed.

Lemma fine_level h : fine h h ss_level.
Proof. apply fine_sq; [apply fine_rd|]. apply fine_alt; [apply fine_rd|apply fine_throw]. Qed.

Ltac fin :=
  repeat first
    [ apply fine_skip | apply fine_rd | apply fine_wr | apply fine_throw | apply fine_level
    | apply fine_inv_ | apply fine_int
    | (apply fine_trigger; first [apply above_nil | apply above_ss; assumption])
    | apply fine_sq | apply fine_alt | apply fine_rep
    | (apply fine_guard; [first [apply above_nil | apply above_ss; assumption]|])
    | (apply fine_seq; eachin) ].

Lemma fine_sw_in h srcs : fine h h (sw_in srcs).
Proof.
  induction srcs as [|a l IH]; cbn [sw_in fold_right]; fin. exact IH.
Qed.

Lemma fine_sw_to h o comb : fine h h (sw_to o comb).
Proof.
  unfold sw_to. apply fine_alt; [fin|]. apply fine_seq. intros c [<- | H]; [fin|].
  apply in_map_iff in H. destruct H as (i & <- & _). fin.
Qed.

Lemma fine_map h {A} (f : A -> cmd) l : (forall a, fine h h (f a)) -> fine h h (seq (map f l)).
Proof. intros F. apply fine_seq. intros c H. apply in_map_iff in H. destruct H as (a & <- & _). auto. Qed.

Ltac fin2 :=
  repeat first
    [ apply fine_sw_in | apply fine_sw_to
    | apply fine_skip | apply fine_rd | apply fine_wr | apply fine_throw | apply fine_level
    | (apply fine_trigger; first [apply above_nil | apply above_ss; assumption])
    | apply fine_sq | apply fine_alt | apply fine_rep
    | (apply fine_guard; [first [apply above_nil | apply above_ss; assumption]|])
    | (apply fine_seq; eachin) ].

Lemma tr_lock_fine o l k : (forall c, In c l -> flow [] [o] c = Some (Some [o])) -> fine [] [] (seq k) ->
  fine [] [] (seq (Lk o :: l ++ Un o :: k)).
Proof. intros F K. apply fine_lock; auto. Qed.

Lemma lib_fine : forall c, lib_call c -> fine [] [] c.
Proof.
  fix IH 2. intros c L.
  destruct L as [o src c N I | o c N I | o src c N I | o src c N I | o src c N I | o src c N I
                | o src c N I | o hw src c N I | o us N | o us ys N | o c I | o srcs comb c N I
                | o c N I | o src c N I | o b src c N I | o c N I | o c N I | o srcs | | 
                | user F | o bs F | o c I ].
  - cbn [sc_methods In] in I; repeat destruct I as [<- | I]; [.. | destruct I];
    unfold sc_run, sc_fire, sc_setLimits, sc_reset, sc_register, sc_setActiveLevel; fin.
  - cbn [In] in I; repeat destruct I as [<- | I]; [.. | destruct I];
    unfold ct_run, ct_setValue, ct_getValue; fin.
  - cbn [i_methods In] in I; repeat destruct I as [<- | I]; [.. | destruct I];
    unfold i_run, i_enable, i_disable, i_setInitCondition, i_setLimit, i_setActiveLevel; fin.
  - cbn [g_methods In] in I; repeat destruct I as [<- | I]; [.. | destruct I];
    unfold g_run, g_enable, g_disable, g_smooth, g_parabolic, g_setGain, g_setMaxGain, g_setMinGain,
      g_setGainDiff, g_setParams; fin.
  - cbn [rl_methods In] in I; repeat destruct I as [<- | I]; [.. | destruct I];
    unfold rl_run, rl_enable, rl_disable, rl_setRate; fin.
  - cbn [sa_methods In] in I; repeat destruct I as [<- | I]; [.. | destruct I];
    unfold sa_run, sa_enable, sa_disable, sa_setLimit; fin.
  - cbn [wa_methods In] in I; repeat destruct I as [<- | I]; [.. | destruct I];
    unfold wa_run, wa_enable, wa_disable, wa_setMinMax; fin.
  - cbn [In] in I; repeat destruct I as [<- | I]; [.. | destruct I];
    unfold po_run, po_getValue; fin.
  - unfold kf_prediction, kf_out. apply fine_guard; [apply above_nil|]. apply fine_seq. eachin; fin.
    apply fine_map. intros. fin.
  - unfold kf_correction, kf_out. apply fine_guard; [apply above_nil|]. apply fine_seq. eachin; [fin|].
    apply fine_alt; [fin|]. apply fine_seq. eachin; try (fin; fail); apply fine_map; intros; fin.
  - cbn [sp_methods In] in I; repeat destruct I as [<- | I]; [.. | destruct I];
    unfold sp_run, sp_reset, sp_setInitValue, sp_setStepHeight, sp_setDelayTime; fin.
  - cbn [sw_methods In] in I; repeat destruct I as [<- | I]; [.. | destruct I];
    unfold sw_run, sw_getCurrentInput, sw_register, sw_setCondition, sw_arm, sw_triggered, sw_setActiveLevel;
    fin2. apply fine_map. intros. fin2.
  - cbn [pp_methods In] in I; repeat destruct I as [<- | I]; [.. | destruct I];
    unfold pp_run, pp_endReached, pp_move, pp_setStart, pp_setMax; fin.
  - cbn [In] in I; repeat destruct I as [<- | I]; [.. | destruct I];
    unfold tr_in_steady, tr_in_up, tr_in_down.
    + apply (tr_lock_fine o [in_sig (Some src); Wr (o, "in")] []); [eachin; reflexivity|fin].
    + apply (tr_lock_fine o [Rd (o, "in"); Wr (o, "prevIn"); in_sig (Some src); Wr (o, "in");
                             Wr (o, "refresh")] []); [eachin; reflexivity|fin].
    + apply (tr_lock_fine o [in_sig (Some src); Wr (o, "buf")] []); [eachin; reflexivity|fin].
  - cbn [In] in I; repeat destruct I as [<- | I]; [.. | destruct I];
    unfold tr_out_steady, tr_out_up, tr_out_down.
    + apply (tr_lock_fine o [Rd (o, "in"); Wr (v b); Rd (o, "in"); Wr (ts b)] []);
        [eachin; reflexivity|fin].
    + apply fine_seq. eachin; [fin| |fin|fin]. apply fine_alt; [fin|].
      apply (tr_lock_fine o [Rd (o, "prevIn"); Rd (o, "in"); Wr (o, "refresh")] []);
        [eachin; reflexivity|fin].
    + cbn [seq fold_right]. apply fine_sq; [fin|].
      apply (tr_lock_fine o [Rep (Rd (o, "buf")); Rd (o, "buf"); Wr (o, "buf")] [Wr (v b); Wr (ts b)]).
      * eachin; try reflexivity. cbn [flow]. now rewrite leq_refl.
      * fin.
  - cbn [In] in I; repeat destruct I as [<- | I]; [.. | destruct I];
    unfold rb_push, rb_pop, rb_length; fin.
  - cbn [so_methods In] in I; repeat destruct I as [<- | I]; [.. | destruct I];
    unfold so_cycle, so_close, so_getReceiveBuffer, so_setSendBuffer, so_isConnected; fin.
  - unfold plain_run. apply fine_seq. eachin; fin. apply fine_map. intros. fin.
  - fin.
  - fin.
  - assert (U : fine [] [] (seq user)).
    { apply fine_seq. revert user F. fix IHF 2. intros user F c Hc. destruct F as [|x l Hx Hl].
      - destruct Hc.
      - destruct Hc as [<- | Hc]; [exact (IH x Hx)|exact (IHF l Hl c Hc)]. }
    unfold ss_run. apply fine_seq. eachin; [fin|fin|fin|]. apply fine_alt; [|fin].
    apply fine_seq. eachin; [fin|exact U|fin|fin].
  - assert (U : forall c, In c bs -> fine [] [] c).
    { revert bs F. fix IHF 2. intros bs F c Hc. destruct F as [|x l Hx Hl].
      - destruct Hc.
      - destruct Hc as [<- | Hc]; [exact (IH x Hx)|exact (IHF l Hl c Hc)]. }
    unfold td_run. apply fine_sq; [fin|]. apply fine_alt; [fin|]. apply fine_seq.
    intros c Hc. apply in_map_iff in Hc. destruct Hc as (x & <- & Hx).
    apply fine_sq; [fin|auto].
  - cbn [In] in I; repeat destruct I as [<- | I]; [.. | destruct I];
    unfold td_start, td_stop, td_addBlock, td_removeBlock; fin.
Qed.

Lemma lib_goes_on cs s t : (forall t c, In c (cs t) -> lib_call c) -> reachable cs s ->
  todo s t <> [] -> can_go_on s t.
Proof.
  intros F (s0 & h & S & R) T.
  destruct (orun _ _ _ R (fun _ => [])) as (H & I).
  - eapply ostart; [|exact S]. intros u c Hc. apply lib_fine. eauto.
  - eapply oinv_can_go_on; eauto.
Qed.

Lemma lib_no_misuse cs s : (forall t c, In c (cs t) -> lib_call c) -> reachable cs s -> ~ misuse s.
Proof.
  intros F (s0 & h & S & R).
  destruct (orun _ _ _ R (fun _ => [])) as (H & I).
  - eapply ostart; [|exact S]. intros u c Hc. apply lib_fine. eauto.
  - eapply oinv_no_misuse; eauto.
Qed.
