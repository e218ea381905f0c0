(** Proofs about the logger. *)
From Coq Require Import Ascii.
From Verif Require Import Prelude ConfModel LogModel LogSpec.
Open Scope nat_scope.

Definition buf_ok (h : list op) (e : nat) (x : entry) : Prop :=
  Some (e_writer x) = m_writer (message_of h e) /\ e_enable x = m_shown (message_of h e) /\
  (e_enable x = true -> e_buf x = m_text (message_of h e) ++ match e_phase x with Open => [] | _ => foot end).
Record inv (h : list op) (s : sys) : Prop := {
  i_nw : length (s_writers s) = n_writers h;
  i_ng : length (s_loggers s) = n_loggers h;
  i_ne : length (s_entries s) = n_entries h;
  i_g : forall g lg, nth_error (s_loggers s) g = Some lg -> (g_writer lg, g_cat lg) = logger_of h g;
  i_w : forall w x, nth_error (s_writers s) w = Some x -> w_visible x = visible h w /\ w_out x = expected_out h w /\ w_file x = expected_file h w;
  i_e : forall e x, nth_error (s_entries s) e = Some x -> buf_ok h e x
}.
Lemma nth_upd {A} (l : list A) i x j : i < length l -> nth_error (upd l i x) j = if j =? i then Some x else nth_error l j.
Proof.
  revert i j. induction l as [|a l IH]; intros i j H; [cbn in H; lia|]. destruct i as [|i]; destruct j as [|j]; cbn; try reflexivity. apply IH. cbn in H. lia.
Qed.
Lemma len_upd {A} (l : list A) i x : length (upd l i x) = length l.
Proof. revert i. induction l as [|a l IH]; intros [|i]; cbn; auto. Qed.
Lemma nth_snoc {A} (l : list A) x j : nth_error (l ++ [x]) j = if j =? length l then Some x else nth_error l j.
Proof.
  destruct (Nat.eqb_spec j (length l)) as [->|H]; [rewrite nth_error_app2 by lia; now rewrite Nat.sub_diag|].
  destruct (Nat.lt_ge_cases j (length l)); [now rewrite nth_error_app1|]. rewrite (proj2 (nth_error_None _ _)) by (rewrite app_length; cbn; lia). symmetry. apply nth_error_None. lia.
Qed.
Lemma inv0 : inv [] sys0.
Proof. constructor; try reflexivity; intros i x H; destruct i; discriminate H. Qed.
Lemma nth_lt {A} (l : list A) i x : nth_error l i = Some x -> i < length l.
Proof. intros H. apply nth_error_Some. congruence. Qed.

(** Of a writer not created yet. *)
Record fresh_inv (h : list op) : Prop := {
  f_out : forall w, n_writers h <= w -> visible h w = INFO /\ expected_out h w = [] /\ expected_file h w = []
}.

Lemma deref_some lg s i w : deref lg s = Some (i, w) -> g_writer lg = Some i /\ nth_error (s_writers s) i = Some w.
Proof. unfold deref. destruct (g_writer lg) as [j|]; [|discriminate]. destruct (nth_error (s_writers s) j) eqn:E; [|discriminate]. intros H. injection H as -> ->. auto. Qed.
Lemma inv_step h s s' o : inv h s -> fresh_inv h -> step s o = Ok s' -> inv (o :: h) s' /\ fresh_inv (o :: h).
Proof.
  intros I F H. destruct o as [|cat|g l|g l stamp|e t|e|e|e]; cbn [step] in H.
  - injection H as <-. split; [constructor; cbn [s_writers s_loggers s_entries n_writers n_loggers n_entries logger_of visible expected_out expected_file message_of]|].
    + rewrite app_length. cbn. rewrite (i_nw _ _ I). lia.
    + apply I. + apply I. + apply I.
    + intros w x Hx. rewrite nth_snoc in Hx. destruct (Nat.eqb_spec w (length (s_writers s))) as [->|]; [|now apply (i_w _ _ I)].
      injection Hx as <-. cbn. rewrite (i_nw _ _ I). destruct (f_out _ F (n_writers h) (le_n _)) as (-> & -> & ->). auto.
    + apply I.
    + constructor. intros w Hw. cbn in *. apply (f_out _ F). lia.
  - assert (K : exists n, n = match length (s_writers s) with 0 => None | S n => Some n end /\ s' = {| s_writers := s_writers s; s_loggers := s_loggers s ++ [{| g_writer := n; g_cat := cat |}]; s_entries := s_entries s |}).
    { destruct (length (s_writers s)); injection H as <-; eauto. }
    destruct K as (n & -> & ->). split; [constructor; cbn [s_writers s_loggers s_entries n_writers n_loggers n_entries visible expected_out expected_file message_of]; try apply I|].
    + rewrite app_length. cbn. rewrite (i_ng _ _ I). lia.
    + intros g lg Hg. rewrite nth_snoc, (i_ng _ _ I) in Hg. cbn [logger_of]. destruct (Nat.eqb_spec g (n_loggers h)) as [->|]; [|now apply (i_g _ _ I)].
      injection Hg as <-. cbn. now rewrite (i_nw _ _ I).
    + constructor. intros w Hw. cbn in *. now apply (f_out _ F).
  - destruct (nth_error (s_loggers s) g) as [lg|] eqn:Eg; [|discriminate]. destruct (deref lg s) as [[i w0]|] eqn:Ed; [|discriminate]. injection H as <-. apply deref_some in Ed. destruct Ed as [Gi Ew].
    pose proof (i_g _ _ I _ _ Eg) as Lg. pose proof (nth_lt _ _ _ Ew) as Lw.
    split; [constructor; cbn [s_writers s_loggers s_entries upd_writer n_writers n_loggers n_entries logger_of expected_out expected_file message_of]; try apply I|].
    + rewrite len_upd. apply I.
    + intros w x Hx. rewrite nth_upd in Hx by exact Lw. cbn [visible]. rewrite <- Lg. cbn [fst]. rewrite Gi. cbn [is_writer]. rewrite (Nat.eqb_sym i w). destruct (Nat.eqb_spec w i) as [->|]; [|now apply (i_w _ _ I)].
      injection Hx as <-. cbn. destruct (i_w _ _ I _ _ Ew) as (_ & -> & ->). auto.
    + constructor. intros w Hw. cbn in *. rewrite <- Lg. cbn [fst]. rewrite Gi. cbn [is_writer]. rewrite (i_nw _ _ I) in Lw. destruct (Nat.eqb_spec i w); [lia|]. now apply (f_out _ F).
  - destruct (nth_error (s_loggers s) g) as [lg|] eqn:Eg; [|discriminate]. destruct (deref lg s) as [[i w0]|] eqn:Ed; [|discriminate]. injection H as <-. apply deref_some in Ed. destruct Ed as [Gi Ew].
    pose proof (i_g _ _ I _ _ Eg) as Lg. destruct (i_w _ _ I _ _ Ew) as (Vw & _ & _).
    split; [constructor; cbn [s_writers s_loggers s_entries n_writers n_loggers n_entries logger_of visible expected_out expected_file]; try apply I|].
    + rewrite app_length. cbn. rewrite (i_ne _ _ I). lia.
    + intros e x Hx. rewrite nth_snoc, (i_ne _ _ I) in Hx. unfold buf_ok. cbn [message_of]. destruct (Nat.eqb_spec e (n_entries h)) as [->|]; [|now apply (i_e _ _ I)].
      injection Hx as <-. cbn [e_writer e_enable e_buf e_phase m_writer m_shown m_text]. rewrite <- Lg. cbn [fst snd]. rewrite Gi, Vw. split; [reflexivity|]. split; [reflexivity|]. intros ->. now rewrite app_nil_r.
    + constructor. intros w Hw. cbn in *. now apply (f_out _ F).
  - destruct (nth_error (s_entries s) e) as [x|] eqn:Ex; [|discriminate]. destruct (e_phase x) eqn:Ep; try discriminate. injection H as <-.
    pose proof (nth_lt _ _ _ Ex) as Lx. destruct (i_e _ _ I _ _ Ex) as (A & B & C). rewrite Ep, app_nil_r in C.
    split; [constructor; cbn [s_writers s_loggers s_entries upd_entry n_writers n_loggers n_entries logger_of visible expected_out expected_file]; try apply I|].
    + rewrite len_upd. apply I.
    + intros e' y Hy. rewrite nth_upd in Hy by exact Lx. unfold buf_ok. cbn [message_of]. destruct (Nat.eqb_spec e' e) as [->|]; [|now apply (i_e _ _ I)].
      injection Hy as <-. cbn. repeat split; [exact A|exact B|]. intros K. rewrite (C K), app_nil_r. reflexivity.
    + constructor. intros w Hw. cbn in *. now apply (f_out _ F).
  - destruct (nth_error (s_entries s) e) as [x|] eqn:Ex; [|discriminate]. destruct (e_phase x) eqn:Ep; try discriminate. injection H as <-.
    pose proof (nth_lt _ _ _ Ex) as Lx. destruct (i_e _ _ I _ _ Ex) as (A & B & C). rewrite Ep, app_nil_r in C.
    split; [constructor; cbn [s_writers s_loggers s_entries upd_entry n_writers n_loggers n_entries logger_of visible expected_out expected_file]; try apply I|].
    + rewrite len_upd. apply I.
    + intros e' y Hy. rewrite nth_upd in Hy by exact Lx. unfold buf_ok. cbn [message_of]. destruct (Nat.eqb_spec e' e) as [->|]; [|now apply (i_e _ _ I)].
      injection Hy as <-. cbn [e_writer e_enable e_buf e_phase m_writer m_shown m_text]. repeat split; [exact A|exact B|]. intros K. rewrite (C K), app_nil_r. reflexivity.
    + constructor. intros w Hw. cbn in *. now apply (f_out _ F).
  - destruct (nth_error (s_entries s) e) as [x|] eqn:Ex; [|discriminate]. destruct (e_phase x) eqn:Ep; try discriminate. destruct (nth_error (s_writers s) (e_writer x)) as [w0|] eqn:Ew; [|discriminate]. injection H as <-.
    pose proof (nth_lt _ _ _ Ex) as Lx. pose proof (nth_lt _ _ _ Ew) as Lw. destruct (i_e _ _ I _ _ Ex) as (A & B & C). rewrite Ep, app_nil_r in C.
    assert (E : forall e' y, nth_error (upd (s_entries s) e {| e_writer := e_writer x; e_enable := e_enable x; e_buf := if e_enable x then e_buf x ++ foot else e_buf x; e_phase := Printed |}) e' = Some y -> buf_ok (EndOut e :: h) e' y).
    { intros e' y Hy. rewrite nth_upd in Hy by exact Lx. unfold buf_ok. cbn [message_of]. destruct (Nat.eqb_spec e' e) as [->|]; [|now apply (i_e _ _ I)].
      injection Hy as <-. cbn [e_writer e_enable e_buf e_phase]. repeat split; [exact A|exact B|]. intros K. now rewrite K, (C K). }
    assert (Fr : fresh_inv (EndOut e :: h)).
    { constructor. intros w Hw. cbn in *. destruct (f_out _ F w Hw) as (-> & -> & ->). repeat split. unfold line_for. rewrite <- A. cbn [is_writer]. rewrite (i_nw _ _ I) in Lw. destruct (Nat.eqb_spec (e_writer x) w); [lia|]. now rewrite andb_false_r. }
    split; [|exact Fr]. destruct (e_enable x) eqn:En; constructor; cbn [s_writers s_loggers s_entries upd_entry upd_writer n_writers n_loggers n_entries logger_of visible expected_file]; try apply I; try (rewrite len_upd; apply I); try exact E.
    + intros w y Hy. rewrite nth_upd in Hy by exact Lw. cbn [expected_out]. unfold line_for. rewrite <- A, <- B. cbn [andb is_writer].
      destruct (Nat.eqb_spec w (e_writer x)) as [->|Hne].
      * injection Hy as <-. cbn [w_visible w_out w_file]. rewrite Nat.eqb_refl. destruct (i_w _ _ I _ _ Ew) as (-> & -> & ->). rewrite (C eq_refl). auto.
      * replace (e_writer x =? w) with false by (symmetry; apply Nat.eqb_neq; congruence). rewrite app_nil_r. now apply (i_w _ _ I).
    + intros w y Hy. cbn [expected_out]. unfold line_for. rewrite <- B. cbn [andb]. rewrite app_nil_r. now apply (i_w _ _ I).
  - destruct (nth_error (s_entries s) e) as [x|] eqn:Ex; [|discriminate]. destruct (e_phase x) eqn:Ep; try discriminate. destruct (nth_error (s_writers s) (e_writer x)) as [w0|] eqn:Ew; [|discriminate]. injection H as <-.
    pose proof (nth_lt _ _ _ Ex) as Lx. pose proof (nth_lt _ _ _ Ew) as Lw. destruct (i_e _ _ I _ _ Ex) as (A & B & C). rewrite Ep in C.
    assert (E : forall e' y, nth_error (upd (s_entries s) e {| e_writer := e_writer x; e_enable := e_enable x; e_buf := e_buf x; e_phase := Closed |}) e' = Some y -> buf_ok (EndFile e :: h) e' y).
    { intros e' y Hy. rewrite nth_upd in Hy by exact Lx. unfold buf_ok. cbn [message_of]. destruct (Nat.eqb_spec e' e) as [->|]; [|now apply (i_e _ _ I)].
      injection Hy as <-. cbn [e_writer e_enable e_buf e_phase]. repeat split; [exact A|exact B|]. exact C. }
    assert (Fr : fresh_inv (EndFile e :: h)).
    { constructor. intros w Hw. cbn in *. destruct (f_out _ F w Hw) as (-> & -> & ->). repeat split. unfold line_for. rewrite <- A. cbn [is_writer]. rewrite (i_nw _ _ I) in Lw. destruct (Nat.eqb_spec (e_writer x) w); [lia|]. now rewrite andb_false_r. }
    split; [|exact Fr]. destruct (e_enable x) eqn:En; constructor; cbn [s_writers s_loggers s_entries upd_entry upd_writer n_writers n_loggers n_entries logger_of visible expected_out]; try apply I; try (rewrite len_upd; apply I); try exact E.
    + intros w y Hy. rewrite nth_upd in Hy by exact Lw. cbn [expected_file]. unfold line_for. rewrite <- A, <- B. cbn [andb is_writer].
      destruct (Nat.eqb_spec w (e_writer x)) as [->|Hne].
      * injection Hy as <-. cbn [w_visible w_out w_file]. rewrite Nat.eqb_refl. destruct (i_w _ _ I _ _ Ew) as (-> & -> & ->). rewrite (C eq_refl). auto.
      * replace (e_writer x =? w) with false by (symmetry; apply Nat.eqb_neq; congruence). rewrite app_nil_r. now apply (i_w _ _ I).
    + intros w y Hy. cbn [expected_file]. unfold line_for. rewrite <- B. cbn [andb]. rewrite app_nil_r. now apply (i_w _ _ I).
Qed.
Lemma inv_run ops : forall h s s', inv h s -> fresh_inv h -> run s ops = Ok s' -> inv (rev ops ++ h) s'.
Proof.
  induction ops as [|o ops IH]; intros h s s' I F H; cbn [run] in H; [injection H as <-; exact I|].
  destruct (step s o) as [s1| |] eqn:E; try discriminate. cbn [bind] in H. destruct (inv_step h s s1 o I F E) as [I1 F1].
  cbn [rev]. rewrite <- app_assoc. cbn [app]. now apply (IH (o :: h) s1).
Qed.
Lemma log_exact ops s w x : run sys0 ops = Ok s -> nth_error (s_writers s) w = Some x -> w_out x = expected_out (rev ops) w /\ w_file x = expected_file (rev ops) w.
Proof.
  intros H Hx. assert (F : fresh_inv []) by (constructor; intros; repeat split).
  pose proof (inv_run ops [] sys0 s inv0 F H) as I. rewrite app_nil_r in I. destruct (i_w _ _ I w x Hx) as (_ & A & B). auto.
Qed.
(** Logging through a logger obtained before a default was set. *)
Lemma null_writer g l stamp cat : run sys0 [GetLogger cat; Show g l] = UB /\ run sys0 [GetLogger cat; Create g l stamp] = UB.
Proof. cbn. destruct g as [|[|g]]; split; reflexivity. Qed.
Lemma same_order h w : one_thread h -> expected_out h w = expected_file h w.
Proof.
  induction 1 as [|h e H IH|h o H IH N]; [reflexivity| |].
  - cbn [expected_out expected_file message_of]. now rewrite IH.
  - destruct o; cbn [expected_out expected_file]; try exact IH; exfalso; destruct (N e) as [A B]; congruence.
Qed.
Lemma file_is_out ops s w x : one_thread (rev ops) -> run sys0 ops = Ok s -> nth_error (s_writers s) w = Some x -> w_file x = w_out x.
Proof. intros O1 H Hx. destruct (log_exact ops s w x H Hx) as [-> ->]. symmetry. now apply same_order. Qed.

Definition ex_ops : list op := [SetDefault; GetLogger 65; Create 0 TRACE []; Insert 0 ["x"%char]; EndOut 0; EndFile 0;
  Create 0 WARN ["t"%char]; Show 0 FATAL; Insert 1 ["a"%char]; Endl 1; Insert 1 ["b"%char]; Create 0 ERROR []; EndOut 2; EndFile 2; EndOut 1; EndFile 1]%Z.
Definition ex_text : text := (["t"; " "; " "; "A"; " "] ++ esc ["2"; "2"; ";"; "3"; "3"; "m"] ++ ["W"; ":"; " "; " "; "a"] ++ endl_text ++ ["b"])%char ++ foot.
Lemma ex_log : match run sys0 ex_ops with Ok s => map (fun w => (w_out w, w_file w)) (s_writers s) = [(ex_text, ex_text)] | _ => False end.
Proof. vm_compute. reflexivity. Qed.
Definition race_ops : list op := [SetDefault; GetLogger 0; Create 0 INFO []; Create 0 WARN []; EndOut 0; EndOut 1; EndFile 1; EndFile 0].
Lemma race_differs : match run sys0 race_ops with Ok s => match s_writers s with [w] => negb (text_eqb (w_out w) (w_file w)) | _ => false end | _ => false end = true.
Proof. vm_compute. reflexivity. Qed.
Lemma race : exists s w, run sys0 race_ops = Ok s /\ nth_error (s_writers s) 0 = Some w /\ w_out w <> w_file w.
Proof.
  pose proof race_differs as K. destruct (run sys0 race_ops) as [s| |]; try discriminate. destruct (s_writers s) as [|w [|]] eqn:E; try discriminate.
  exists s, w. split; [reflexivity|]. rewrite E. split; [reflexivity|]. intros Q. rewrite Q in K. unfold text_eqb in K. destruct (list_eq_dec ascii_dec (w_file w) (w_file w)); [discriminate|congruence].
Qed.
Definition phase_of (e : nat) (ends : list (nat * bool)) (p : phase) : Prop :=
  match p with
  | Open => ~ In (e, true) ends /\ ~ In (e, false) ends
  | Printed => In (e, false) ends /\ ~ In (e, true) ends
  | Closed => In (e, false) ends /\ In (e, true) ends
  end.
Record safe (s : sys) (ng ne : nat) (ends : list (nat * bool)) : Prop := {
  sf_w : s_writers s <> [];
  sf_g : length (s_loggers s) = ng;
  sf_e : length (s_entries s) = ne;
  sf_gw : forall g lg, nth_error (s_loggers s) g = Some lg -> exists i, g_writer lg = Some i /\ i < length (s_writers s);
  sf_ew : forall e x, nth_error (s_entries s) e = Some x -> e_writer x < length (s_writers s) /\ phase_of e ends (e_phase x);
  sf_b : forall e b, In (e, b) ends -> e < ne
}.
Lemma nth_ex {A} (l : list A) i : i < length l -> exists x, nth_error l i = Some x.
Proof. intros H. destruct (nth_error l i) eqn:E; [eauto|]. apply nth_error_None in E. lia. Qed.
Lemma upd_nil {A} (l : list A) i x : l <> [] -> upd l i x <> [].
Proof. destruct l; [congruence|]. destruct i; discriminate. Qed.
Lemma phase_other e e' b ends p : e <> e' -> phase_of e ends p -> phase_of e ((e', b) :: ends) p.
Proof. intros N. destruct p; cbn; intuition congruence. Qed.
Lemma no_ub_gen ops : forall s ng ne ends, safe s ng ne ends -> respects_entries ops ne ends -> uses_loggers ops ng -> exists s', run s ops = Ok s'.
Proof.
  induction ops as [|o ops IH]; intros s ng ne ends I R U; [exists s; reflexivity|]. cbn [run].
  destruct o as [|cat|g l|g l stamp|e t|e|e|e]; cbn [respects_entries uses_loggers] in R, U.
  - cbn [step bind]. refine (IH _ ng ne ends _ R U). constructor; cbn [s_writers s_loggers s_entries]; try apply I.
    + destruct (s_writers s); discriminate.
    + intros g lg H. destruct (sf_gw _ _ _ _ I g lg H) as (i & A & B). exists i. rewrite app_length. cbn. split; [exact A|lia].
    + intros e x H. destruct (sf_ew _ _ _ _ I e x H) as [A B]. rewrite app_length. cbn. split; [lia|exact B].
  - cbn [step]. pose proof (sf_w _ _ _ _ I) as W. destruct (s_writers s) as [|w ws] eqn:Ew; [congruence|]. cbn [length bind]. refine (IH _ (S ng) ne ends _ R U).
    constructor; cbn [s_writers s_loggers s_entries]; try apply I; try (rewrite <- Ew; apply I); try discriminate.
    + rewrite app_length. cbn. rewrite (sf_g _ _ _ _ I). lia.
    + intros g lg H. rewrite nth_snoc in H. destruct (g =? _); [injection H as <-; exists (length ws); cbn; split; [reflexivity|lia]|]. rewrite <- Ew. now apply (sf_gw _ _ _ _ I g).
  - destruct U as [Ug U]. rewrite <- (sf_g _ _ _ _ I) in Ug. destruct (nth_ex _ _ Ug) as (lg & Eg). destruct (sf_gw _ _ _ _ I g lg Eg) as (i & Gi & Li). destruct (nth_ex _ _ Li) as (w & Ew).
    cbn [step]. rewrite Eg. unfold deref. rewrite Gi, Ew. cbn [bind]. refine (IH _ ng ne ends _ R U). constructor; cbn [s_writers s_loggers s_entries upd_writer]; try apply I; rewrite ?len_upd; try apply I. apply upd_nil. apply I.
  - destruct U as [Ug U]. rewrite <- (sf_g _ _ _ _ I) in Ug. destruct (nth_ex _ _ Ug) as (lg & Eg). destruct (sf_gw _ _ _ _ I g lg Eg) as (i & Gi & Li). destruct (nth_ex _ _ Li) as (w & Ew).
    cbn [step]. rewrite Eg. unfold deref. rewrite Gi, Ew. cbn [bind]. refine (IH _ ng (S ne) ends _ R U). constructor; cbn [s_writers s_loggers s_entries]; try apply I.
    + rewrite app_length. cbn. rewrite (sf_e _ _ _ _ I). lia.
    + intros e x H. rewrite nth_snoc in H. destruct (Nat.eqb_spec e (length (s_entries s))) as [->|]; [|now apply (sf_ew _ _ _ _ I)]. injection H as <-. cbn. split; [exact Li|].
      rewrite (sf_e _ _ _ _ I). split; intros Hi; apply (sf_b _ _ _ _ I) in Hi; lia.
    + intros e b H. apply (sf_b _ _ _ _ I) in H. lia.
  - destruct R as (Le & N1 & N2 & R). rewrite <- (sf_e _ _ _ _ I) in Le. destruct (nth_ex _ _ Le) as (x & Ex). destruct (sf_ew _ _ _ _ I e x Ex) as [Wx Px].
    cbn [step]. rewrite Ex. destruct (e_phase x) eqn:Ep; cbn [phase_of] in Px; try tauto. cbn [bind]. refine (IH _ ng ne ends _ R U). constructor; cbn [s_writers s_loggers s_entries upd_entry]; try apply I; rewrite ?len_upd; try apply I.
    intros e' y H. rewrite nth_upd in H by exact Le. destruct (Nat.eqb_spec e' e) as [->|]; [injection H as <-; cbn; auto|now apply (sf_ew _ _ _ _ I)].
  - destruct R as (Le & N1 & N2 & R). rewrite <- (sf_e _ _ _ _ I) in Le. destruct (nth_ex _ _ Le) as (x & Ex). destruct (sf_ew _ _ _ _ I e x Ex) as [Wx Px].
    cbn [step]. rewrite Ex. destruct (e_phase x) eqn:Ep; cbn [phase_of] in Px; try tauto. cbn [bind]. refine (IH _ ng ne ends _ R U). constructor; cbn [s_writers s_loggers s_entries upd_entry]; try apply I; rewrite ?len_upd; try apply I.
    intros e' y H. rewrite nth_upd in H by exact Le. destruct (Nat.eqb_spec e' e) as [->|]; [injection H as <-; cbn [e_writer e_phase phase_of]; auto|now apply (sf_ew _ _ _ _ I)].
  - destruct R as (Le & N1 & N2 & R). rewrite <- (sf_e _ _ _ _ I) in Le. destruct (nth_ex _ _ Le) as (x & Ex). destruct (sf_ew _ _ _ _ I e x Ex) as [Wx Px].
    destruct (nth_ex _ _ Wx) as (w & Ew). cbn [step]. rewrite Ex. destruct (e_phase x) eqn:Ep; cbn [phase_of] in Px; try tauto. rewrite Ew. cbn [bind]. refine (IH _ ng ne ((e, false) :: ends) _ R U).
    assert (K : forall e' y, nth_error (upd (s_entries s) e {| e_writer := e_writer x; e_enable := e_enable x; e_buf := if e_enable x then e_buf x ++ foot else e_buf x; e_phase := Printed |}) e' = Some y ->
       e_writer y < length (s_writers s) /\ phase_of e' ((e, false) :: ends) (e_phase y)).
    { intros e' y H. rewrite nth_upd in H by exact Le. destruct (Nat.eqb_spec e' e) as [->|Hne].
      - injection H as <-. cbn [e_writer e_phase phase_of]. split; [exact Wx|]. split; [now left|]. intros [H|H]; [congruence|tauto].
      - destruct (sf_ew _ _ _ _ I e' y H) as [A B]. split; [exact A|]. now apply phase_other. }
    assert (B : forall e' b, In (e', b) ((e, false) :: ends) -> e' < ne) by (intros e' b [H|H]; [injection H as <- <-; rewrite <- (sf_e _ _ _ _ I); exact Le|now apply (sf_b _ _ _ _ I) in H]).
    destruct (e_enable x); constructor; cbn [s_writers s_loggers s_entries upd_entry upd_writer]; rewrite ?len_upd; try apply I; try exact K; try exact B. apply upd_nil, I.
  - destruct R as (Le & N1 & N2 & R). rewrite <- (sf_e _ _ _ _ I) in Le. destruct (nth_ex _ _ Le) as (x & Ex). destruct (sf_ew _ _ _ _ I e x Ex) as [Wx Px].
    destruct (nth_ex _ _ Wx) as (w & Ew). cbn [step]. rewrite Ex. destruct (e_phase x) eqn:Ep; cbn [phase_of] in Px; try tauto. rewrite Ew. cbn [bind]. refine (IH _ ng ne ((e, true) :: ends) _ R U).
    assert (K : forall e' y, nth_error (upd (s_entries s) e {| e_writer := e_writer x; e_enable := e_enable x; e_buf := e_buf x; e_phase := Closed |}) e' = Some y ->
       e_writer y < length (s_writers s) /\ phase_of e' ((e, true) :: ends) (e_phase y)).
    { intros e' y H. rewrite nth_upd in H by exact Le. destruct (Nat.eqb_spec e' e) as [->|Hne].
      - injection H as <-. cbn [e_writer e_phase phase_of]. split; [exact Wx|]. split; [right; tauto|now left].
      - destruct (sf_ew _ _ _ _ I e' y H) as [A B]. split; [exact A|]. now apply phase_other. }
    assert (B : forall e' b, In (e', b) ((e, true) :: ends) -> e' < ne) by (intros e' b [H|H]; [injection H as <- <-; rewrite <- (sf_e _ _ _ _ I); exact Le|now apply (sf_b _ _ _ _ I) in H]).
    destruct (e_enable x); constructor; cbn [s_writers s_loggers s_entries upd_entry upd_writer]; rewrite ?len_upd; try apply I; try exact K; try exact B. apply upd_nil, I.
Qed.
Lemma no_ub ops : respects_entries ops 0 [] -> uses_loggers ops 0 -> exists s, run sys0 (SetDefault :: ops) = Ok s.
Proof.
  intros R U. cbn [run step bind]. apply (no_ub_gen ops _ 0 0 []); try assumption. constructor; cbn; try reflexivity; try discriminate; try tauto; intros i x H; destruct i; discriminate.
Qed.
