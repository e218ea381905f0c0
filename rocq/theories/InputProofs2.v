(** Proofs about the keyboard block. *)
From Coq Require Import Ascii.
From Verif Require Import Prelude Num InputModel InputSpec.
Open Scope nat_scope.

Lemma last_stroke_app : forall c i es e, last_is_stroke c i (es ++ [e]) =
  if concerns c i e then is_stroke e else last_is_stroke c i es.
Proof.
  intros c i es e; unfold last_is_stroke. rewrite rev_app_distr. cbn.
  destruct (concerns c i e); reflexivity.
Qed.

Lemma kb_add_ok : forall codes names l nof, nof + length codes <= 255 -> nof + length codes <= length names ->
  exists ks, kb_add_loop nof codes names l = Ok {| kl_nof := nof + length codes; kl_keys := l ++ ks |} /\
    map k_code ks = codes /\ map k_name ks = firstn (length codes) (skipn nof names) /\ Forall (fun k => k_state k = false) ks.
Proof.
  induction codes as [|c codes IH]; intros names l nof H1 H2; cbn [kb_add_loop length].
  - exists []. rewrite Nat.add_0_r, app_nil_r. repeat split. constructor.
  - cbn [length] in *.
    destruct (nth_error names nof) as [n|] eqn:En; [|apply nth_error_None in En; lia].
    rewrite Nat.mod_small by lia.
    destruct (IH names (l ++ [{| k_name := n; k_code := c; k_state := false |}]) (S nof)) as (ks & E & E1 & E2 & E3).
    { lia. } { lia. }
    exists ({| k_name := n; k_code := c; k_state := false |} :: ks).
    rewrite E, <- app_assoc. repeat split.
    + do 2 f_equal. lia.
    + cbn. now f_equal.
    + cbn [map k_name].
      assert (Es : skipn nof names = n :: skipn (S nof) names).
      { clear -En. revert names En. induction nof; intros [|x names] En; cbn in *; try discriminate.
        - now injection En as ->.
        - rewrite IHnof by assumption. reflexivity. }
      rewrite Es. cbn [firstn]. now rewrite E2.
    + now constructor.
Qed.

Definition kb_inv (codes : list ascii) (hist : list (ascii + nat)) (l : klist) : Prop :=
  kl_nof l = length codes /\ length (kl_keys l) = length codes /\
  forall i k, nth_error (kl_keys l) i = Some k ->
    nth_error codes i = Some (k_code k) /\ k_state k = last_is_stroke (k_code k) i hist.

Lemma press_in_nth : forall c n l i k, nth_error (kb_press_in n c l) i = Some k -> length l <= n ->
  exists k0, nth_error l i = Some k0 /\ k_code k = k_code k0 /\ k_name k = k_name k0 /\
    k_state k = if Ascii.eqb c (k_code k0) then true else k_state k0.
Proof.
  intros c n; induction n as [|n IH]; intros [|k0 l] i k H Hl; cbn in *; try lia.
  - destruct i; discriminate.
  - destruct i; discriminate.
  - destruct i as [|i]; cbn in *.
    + injection H as <-. exists k0. repeat split.
    + apply IH; [assumption|lia].
Qed.
Lemma press_in_length : forall c n l, length (kb_press_in n c l) = length l.
Proof. intros c n; induction n; intros [|k l]; cbn; auto. Qed.
Lemma clear_nth : forall j l i k, nth_error (kb_clear j l) i = Some k ->
  exists k0, nth_error l i = Some k0 /\ k_code k = k_code k0 /\ k_name k = k_name k0 /\
    k_state k = if Nat.eqb j i then false else k_state k0.
Proof.
  induction j as [|j IH]; intros [|k0 l] i k H; cbn in *; try (destruct i; discriminate).
  - destruct i; cbn in *.
    + injection H as <-. exists k0. repeat split.
    + exists k. repeat split; assumption.
  - destruct i; cbn in *.
    + injection H as <-. exists k0. repeat split.
    + now apply IH.
Qed.
Lemma clear_length : forall j l, length (kb_clear j l) = length l.
Proof. induction j; intros [|k l]; cbn; auto. Qed.

Lemma kb_inv_step : forall codes hist l e l', kb_inv codes hist l -> kb_step l (ev_of e) = Ok l' -> kb_inv codes (hist ++ [e]) l'.
Proof.
  intros codes hist l e l' (Hn & Hl & Hk) H. destruct e as [c|j]; cbn in H.
  - injection H as <-. unfold kb_inv, kb_press; cbn. rewrite press_in_length. repeat split; try assumption.
    + destruct (press_in_nth _ _ _ _ _ H) as (k0 & E0 & Ec & _ & _); [lia|]. rewrite Ec. exact (proj1 (Hk _ _ E0)).
    + destruct (press_in_nth _ _ _ _ _ H) as (k0 & E0 & Ec & _ & Es); [lia|]. rewrite last_stroke_app, Es, Ec. cbn.
      destruct (Ascii.eqb c (k_code k0)); [reflexivity|]. exact (proj2 (Hk _ _ E0)).
  - unfold kb_reset in H. destruct (j <? kl_nof l) eqn:Ej; [|discriminate]. injection H as <-.
    unfold kb_inv; cbn. rewrite clear_length. repeat split; try assumption.
    + destruct (clear_nth _ _ _ _ H) as (k0 & E0 & Ec & _ & _). rewrite Ec. exact (proj1 (Hk _ _ E0)).
    + destruct (clear_nth _ _ _ _ H) as (k0 & E0 & Ec & _ & Es). rewrite last_stroke_app, Es, Ec. cbn.
      destruct (Nat.eqb j i); [reflexivity|]. exact (proj2 (Hk _ _ E0)).
Qed.
Lemma kb_inv_events : forall es codes hist l l', kb_inv codes hist l -> kb_events l (map ev_of es) = Ok l' -> kb_inv codes (hist ++ es) l'.
Proof.
  induction es as [|e es IH]; intros codes hist l l' Hi H; cbn in H.
  - injection H as <-. now rewrite app_nil_r.
  - destruct (kb_step l (ev_of e)) as [l1| |] eqn:E; try discriminate. cbn in H.
    apply (kb_inv_step _ _ _ _ _ Hi) in E. specialize (IH _ _ _ _ E H). now rewrite <- app_assoc in IH.
Qed.
Lemma kb_inv_new : forall codes names l, length codes <= 255 -> length codes <= length names ->
  kb_add codes names klist0 = Ok l -> kb_inv codes [] l /\ map k_name (kl_keys l) = firstn (length codes) names.
Proof.
  intros codes names l H1 H2 H. unfold kb_add in H. cbn in H.
  destruct (kb_add_ok codes names [] 0 H1 H2) as (ks & E & E1 & E2 & E3).
  rewrite E in H. injection H as <-. cbn. split; [|exact E2]. repeat split; cbn.
  - now rewrite <- (map_length k_code ks), E1.
  - rewrite <- E1. apply map_nth_error. assumption.
  - apply (proj1 (Forall_forall _ _) E3). eapply nth_error_In; eassumption.
Qed.
Lemma kb_register_ok : forall names hal, NoDup names -> (forall n, In n names -> ~ In n hal) -> exists hal', kb_register names hal = Ok hal'.
Proof.
  induction names as [|n names IH]; intros hal Hd Hh; cbn; [eauto|].
  destruct (existsb (Nat.eqb n) hal) eqn:E.
  - apply existsb_exists in E. destruct E as (m & Hm & Em). apply Nat.eqb_eq in Em. subst m. exfalso. apply (Hh n); [now left|assumption].
  - inversion Hd; subst. apply IH; [assumption|]. intros m Hm [<-|Hi]; [contradiction|]. now apply (Hh m); [right|].
Qed.
Lemma kb_register_in : forall names hal hal', kb_register names hal = Ok hal' -> forall n, In n names \/ In n hal -> In n hal'.
Proof.
  induction names as [|n names IH]; intros hal hal' H m Hm; cbn in H.
  - injection H as <-. destruct Hm as [[]|]; assumption.
  - destruct (existsb _ _); [discriminate|]. apply (IH _ _ H). cbn. destruct Hm as [[->|]|]; auto.
Qed.

(** One block in the program. *)
Lemma keyboard_single : forall N codes names hal0, length codes <= N -> length codes <= 255 -> length names = length codes ->
  NoDup names -> (forall n, In n names -> ~ In n hal0) ->
  exists hal l, kb_construct codes names (hal0, klist0) = Ok (hal, l) /\
  forall es l', kb_events l (map ev_of es) = Ok l' ->
  exists outs, kb_run N l' = Ok outs /\ length outs = length codes /\
    forall i c, nth_error codes i = Some c -> nth_error outs i = Some (last_is_stroke c i es).
Proof.
  intros N codes names hal0 HN H255 Hnm Hd Hh.
  destruct (kb_add_ok codes names [] 0 H255) as (ks & E & E1 & E2 & E3); [lia|].
  assert (Ea : kb_add codes names klist0 = Ok {| kl_nof := length codes; kl_keys := ks |}) by exact E.
  destruct (kb_inv_new codes names _ H255 ltac:(lia) Ea) as [Hi Hnames]. cbn [kl_keys] in Hnames.
  rewrite firstn_all2 in Hnames by lia.
  assert (Hlen : length ks = length codes) by (rewrite <- E1; now rewrite map_length).
  destruct (kb_register_ok names hal0 Hd Hh) as (hal & Eh).
  exists hal, {| kl_nof := length codes; kl_keys := ks |}. split.
  - unfold kb_construct. cbn [fst snd]. rewrite Ea. cbn [bind kl_nof kl_keys].
    rewrite (firstn_all2 ks) by lia. rewrite Hnames, Eh. reflexivity.
  - intros es l' He. destruct (kb_inv_events es codes [] _ l' Hi He) as (Hn & Hl & Hk).
    unfold kb_run. rewrite Hn, Hl. rewrite (proj2 (Nat.leb_le _ _) HN), Nat.leb_refl. cbn [andb].
    eexists. split; [reflexivity|]. rewrite firstn_all2 by lia. rewrite map_length. split; [assumption|].
    intros i c Hc. assert (Hi' : i < length (kl_keys l')) by (rewrite Hl; apply nth_error_Some; congruence).
    destruct (nth_error (kl_keys l') i) as [k|] eqn:Ek; [|now apply nth_error_None in Ek; lia].
    destruct (Hk _ _ Ek) as [Hc' Hs]. rewrite Hc in Hc'. injection Hc' as ->.
    rewrite (map_nth_error k_state _ _ Ek), Hs. reflexivity.
Qed.

Lemma kb_add_keeps : forall codes names nof l l', kb_add_loop nof codes names l = Ok l' -> exists ks, kl_keys l' = l ++ ks /\ length ks = length codes.
Proof.
  induction codes as [|c codes IH]; intros names nof l l' H; cbn [kb_add_loop] in H.
  - injection H as <-. exists []. now rewrite app_nil_r.
  - destruct (nth_error names nof) as [n|]; [|discriminate]. apply IH in H. destruct H as (ks & E & El).
    exists ({| k_name := n; k_code := c; k_state := false |} :: ks). rewrite E, <- app_assoc. split; [reflexivity|]. cbn; now f_equal.
Qed.
Lemma kb_add_nof : forall codes names nof l l', nof + length codes <= 255 -> kb_add_loop nof codes names l = Ok l' -> kl_nof l' = nof + length codes.
Proof.
  induction codes as [|c codes IH]; intros names nof l l' Hl H; cbn [kb_add_loop length] in *.
  - injection H as <-. cbn. lia.
  - destruct (nth_error names nof) as [n|]; [|discriminate]. rewrite Nat.mod_small in H by lia. apply IH in H; lia.
Qed.

(** Every second block throws, whatever its keys are called. *)
Lemma keyboard_second : forall codes1 names1 codes2 names2 hal0 s1,
  codes1 <> [] -> length codes1 <= 255 -> length codes1 <= length names1 -> codes2 <> [] -> length codes2 <= 255 ->
  kb_construct codes1 names1 (hal0, klist0) = Ok s1 -> length codes2 <= length names2 ->
  kb_construct codes2 names2 s1 = Fault.
Proof.
  intros codes1 names1 codes2 names2 hal0 [hal l] Hc1 H1 Hn1 Hc2 H2 H Hn2.
  unfold kb_construct in H. cbn [fst snd] in H.
  destruct (kb_add codes1 names1 klist0) as [l1| |] eqn:E1; try discriminate. cbn [bind] in H.
  destruct (kb_register _ _) as [h| |] eqn:Er; try discriminate. injection H as <- <-.
  destruct (kb_inv_new codes1 names1 l1 H1 Hn1 E1) as [(Hnof & Hlen & _) _].
  unfold kb_construct. cbn [fst snd].
  destruct (kb_add_ok codes2 names2 (kl_keys l1) 0 H2 Hn2) as (ks & E2 & _).
  unfold kb_add. rewrite E2. cbn [bind kl_nof kl_keys].
  destruct (kl_keys l1) as [|k rest] eqn:Ek.
  { destruct codes1; [congruence|]. cbn in Hlen. lia. }
  destruct codes2 as [|c2 codes2]; [congruence|]. cbn [length Nat.add app firstn map].
  assert (Hin : In (k_name k) h).
  { apply (kb_register_in _ _ _ Er). left. rewrite Hnof. destruct codes1; [congruence|]. cbn. now left. }
  cbn [kb_register].
  replace (existsb (Nat.eqb (k_name k)) h) with true; [reflexivity|].
  symmetry. apply existsb_exists. exists (k_name k). split; [assumption|apply Nat.eqb_refl].
Qed.

Local Open Scope char_scope.
Lemma keyboard_second_witness : exists codes1 names1 codes2 names2 s1, length names1 = length codes1 /\ length names2 = length codes2 /\
  NoDup (names1 ++ names2) /\ kb_construct codes1 names1 ([], klist0) = Ok s1 /\ kb_construct codes2 names2 s1 = Fault.
Proof.
  exists ["a"], [1], ["b"], [2]. eexists. split; [reflexivity|]. split; [reflexivity|]. split.
  { cbn. constructor; [intros [H|[]]; discriminate|]. constructor; [intros []|constructor]. }
  split; reflexivity.
Qed.
Lemma keyboard_too_many : exists N codes names s, length names = length codes /\ NoDup names /\
  kb_construct codes names ([], klist0) = Ok s /\ kb_run N (snd s) = UB.
Proof.
  exists 2, ["a"; "b"; "c"], [1; 2; 3]. eexists. split; [reflexivity|]. split.
  { constructor; [intros [H|[H|[]]]; discriminate|]. constructor; [intros [H|[]]; discriminate|]. constructor; [intros []|constructor]. }
  split; reflexivity.
Qed.
