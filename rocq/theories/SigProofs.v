(** Proofs about signal handlers. *)
From Verif Require Import Prelude SafetyModel SigModel SigSpec.
Local Open Scope nat_scope.

Definition hold (s : st) (t : nat) : bool := locked (body (th s t)) || locked (hnd (th s t)).
Definition inv (s : st) : Prop :=
  (forall t, hold s t = true <-> own s = Some t) /\ forall t, locked (body (th s t)) && locked (hnd (th s t)) = false.

Lemma call_own : forall h t f b s s' f', call_step h t f b s = Some (Ok (s', f')) ->
  th s' = th s /\ cur s' = cur s /\
  ((own s' = own s /\ locked f' = locked (Some f)) \/
   (own s = None /\ own s' = Some t /\ locked (Some f) = false /\ locked f' = true) \/
   (own s' = None /\ locked (Some f) = true /\ locked f' = false)).
Proof.
  intros h t f b s s' f' E. destruct f; cbn in E.
  - injection E as <- <-. auto.
  - injection E as <- <-. split; [reflexivity|]. split; [reflexivity|]. left. split; [reflexivity|].
    destruct (getDestLevelForEvent _ _ _); reflexivity.
  - destruct (own s) as [o|] eqn:O.
    + destruct (Nat.eqb o t); discriminate.
    + injection E as <- <-. cbn. auto 8.
  - injection E as <- <-. auto.
  - injection E as <- <-. destruct w; cbn; auto.
  - injection E as <- <-. cbn. auto 8.
  - assert (E' : s' = s /\ f' = Some PLogE) by (destruct b as [[]|]; try discriminate; injection E as <- <-; auto).
    destruct E' as [-> ->]. auto.
  - injection E as <- <-. auto.
Qed.

Lemma inv_start : forall c, inv (start c).
Proof. intros c. split; intros t; cbn; [split; discriminate|reflexivity]. Qed.

Lemma th_body : forall t f s u, th (w_body t f s) u = if Nat.eqb u t then {| body := f; hnd := hnd (th s t) |} else th s u.
Proof. intros. reflexivity. Qed.
Lemma th_hnd : forall t f s u, th (w_hnd t f s) u = if Nat.eqb u t then {| body := body (th s t); hnd := f |} else th s u.
Proof. intros. reflexivity. Qed.

(* replacing an unlocked call by an unlocked one *)
Lemma inv_body : forall s t f, inv s -> locked (body (th s t)) = false -> locked f = false -> inv (w_body t f s).
Proof.
  intros s t f [A B] L F. split; intros u.
  - unfold hold. rewrite th_body. specialize (A u). unfold hold in A. destruct (Nat.eqb_spec u t) as [->|]; cbn.
    + rewrite F. rewrite L in A. exact A.
    + exact A.
  - rewrite th_body. destruct (Nat.eqb_spec u t) as [->|]; cbn; [rewrite F; reflexivity|apply B].
Qed.

Lemma inv_hnd : forall s t f, inv s -> locked (hnd (th s t)) = false -> locked f = false -> inv (w_hnd t f s).
Proof.
  intros s t f [A B] L F. split; intros u.
  - unfold hold. rewrite th_hnd. specialize (A u). unfold hold in A. destruct (Nat.eqb_spec u t) as [->|]; cbn.
    + rewrite F. rewrite L in A. exact A.
    + exact A.
  - rewrite th_hnd. destruct (Nat.eqb_spec u t) as [->|]; cbn; [rewrite F, andb_false_r; reflexivity|apply B].
Qed.

Lemma idle_none : forall x, idle x = true -> body x = None /\ hnd x = None.
Proof. intros [[|] [|]]; cbn; intros; try discriminate; auto. Qed.

Lemma inv_step : forall h x l s s', inv s -> step h x l s = Some (Ok s') -> inv s'.
Proof.
  intros h x l s s' I E. destruct l as [t e p|t|t|t|]; cbn in E.
  - destruct (idle (th s t)) eqn:D; [|discriminate]. injection E as <-. apply idle_none in D as [D1 D2].
    apply inv_body; [exact I|rewrite D1; reflexivity|reflexivity].
  - destruct (idle (th s t)) eqn:D; [|discriminate]. injection E as <-. apply idle_none in D as [D1 D2].
    apply inv_body; [exact I|rewrite D1; reflexivity|reflexivity].
  - destruct I as [A B]. destruct (hnd (th s t)) as [f|] eqn:Hn.
    + destruct (call_step h t f (body (th s t)) s) as [[[s1 f1]| |]|] eqn:C; try discriminate. cbn in E. injection E as <-.
      apply call_own in C as (T & _ & O).
      assert (At := A t). unfold hold in At. rewrite Hn in At.
      assert (Bt := B t). rewrite Hn in Bt.
      split; intros u.
      * unfold hold. rewrite th_hnd, T. cbn [own w_hnd]. assert (Au := A u). unfold hold in Au.
        destruct (Nat.eqb_spec u t) as [->|N]; cbn.
        -- destruct O as [(O1 & O2)|[(O1 & O2 & O3 & O4)|(O1 & O2 & O3)]].
           ++ rewrite O1, O2. exact At.
           ++ rewrite O2, O4, orb_true_r. tauto.
           ++ rewrite O1, O3. rewrite O2, andb_true_r in Bt. rewrite Bt. cbn. split; discriminate.
        -- destruct O as [(O1 & O2)|[(O1 & O2 & O3 & O4)|(O1 & O2 & O3)]].
           ++ rewrite O1. exact Au.
           ++ rewrite O2. rewrite O1 in Au. split; intros Q; [apply Au in Q; discriminate|congruence].
           ++ rewrite O1. split; intros Q; [|discriminate]. apply Au in Q. rewrite O2, orb_true_r in At.
              destruct At as [At _]. specialize (At eq_refl). congruence.
      * rewrite th_hnd, T. destruct (Nat.eqb_spec u t) as [->|N]; cbn; [|apply B].
        destruct O as [(O1 & O2)|[(O1 & O2 & O3 & O4)|(O1 & O2 & O3)]].
        -- rewrite O2. exact Bt.
        -- rewrite O4, andb_true_r. destruct (locked (body (th s t))) eqn:L; [|reflexivity].
           cbn in At. destruct At as [At _]. specialize (At eq_refl). congruence.
        -- rewrite O3. apply andb_false_r.
    + destruct (body (th s t)) as [f|] eqn:Bo; [|discriminate].
      destruct (call_step h t f None s) as [[[s1 f1]| |]|] eqn:C; try discriminate. cbn in E. injection E as <-.
      apply call_own in C as (T & _ & O).
      assert (At := A t). unfold hold in At. rewrite Hn, Bo, orb_false_r in At.
      split; intros u.
      * unfold hold. rewrite th_body, T. cbn [own w_body]. assert (Au := A u). unfold hold in Au.
        destruct (Nat.eqb_spec u t) as [->|N]; cbn; [rewrite Hn; cbn; rewrite orb_false_r|].
        -- destruct O as [(O1 & O2)|[(O1 & O2 & O3 & O4)|(O1 & O2 & O3)]].
           ++ rewrite O1, O2. exact At.
           ++ rewrite O2, O4. tauto.
           ++ rewrite O1, O3. split; discriminate.
        -- destruct O as [(O1 & O2)|[(O1 & O2 & O3 & O4)|(O1 & O2 & O3)]].
           ++ rewrite O1. exact Au.
           ++ rewrite O2. rewrite O1 in Au. split; intros Q; [apply Au in Q; discriminate|congruence].
           ++ rewrite O1. split; intros Q; [|discriminate]. apply Au in Q. rewrite O2 in At.
              destruct At as [At _]. specialize (At eq_refl). congruence.
      * rewrite th_body, T. destruct (Nat.eqb_spec u t) as [->|N]; cbn; [rewrite Hn; apply andb_false_r|apply B].
  - destruct (hnd (th s t)) eqn:D; [discriminate|]. injection E as <-.
    apply inv_hnd; [exact I|rewrite D; reflexivity|reflexivity].
  - destruct (idle (th s 0)) eqn:D; [|discriminate]. injection E as <-. exact I.
Qed.

Lemma steps_app : forall h x ls ks s s', steps h x ls s = Some (Ok s') -> steps h x (ls ++ ks) s = steps h x ks s'.
Proof.
  intros h x ls. induction ls as [|l ls IH]; intros ks s s' E; cbn in *.
  - injection E as <-. reflexivity.
  - destruct (step h x l s) as [[s1| |]|]; try discriminate. apply IH, E.
Qed.

Lemma steps_ind' : forall h x (P : st -> Prop), (forall l s s', P s -> step h x l s = Some (Ok s') -> P s') ->
  forall ls s s', P s -> steps h x ls s = Some (Ok s') -> P s'.
Proof.
  intros h x P S ls. induction ls as [|l ls IH]; intros s s' A E; cbn in E.
  - injection E as <-. exact A.
  - destruct (step h x l s) as [[s1| |]|] eqn:E1; try discriminate. apply (IH s1); [apply (S l s); assumption|exact E].
Qed.

Lemma inv_reach : forall h x s, reach h x s -> inv s.
Proof. intros h x s (c & ls & E). apply (steps_ind' h x inv (fun l s s' => inv_step h x l s s') ls (start c)); [apply inv_start|exact E]. Qed.

Lemma good_reach : forall h x s, reach_good h x s -> reach h x s.
Proof.
  intros h x s R. induction R as [c|s l s' R (c & ls & E) G S].
  - exists c, []. reflexivity.
  - exists c, (ls ++ [l]). rewrite (steps_app _ _ _ _ _ _ E). cbn. rewrite S. reflexivity.
Qed.

(** Undefined are only two cases. *)
Lemma undefined_only : forall h x l s, reach h x s -> step h x l s = Some UB ->
  exists t, l = LStep t /\
  ((exists d, hnd (th s t) = Some (PLock d) /\ locked (body (th s t)) = true) \/
   (hnd (th s t) = Some PLogB /\ inside (body (th s t)) = true)).
Proof.
  intros h x l s R E. apply inv_reach in R as [A B]. destruct l as [t e p|t|t|t|]; cbn in E.
  - destruct (idle (th s t)); discriminate.
  - destruct (idle (th s t)); discriminate.
  - exists t. split; [reflexivity|]. assert (At := A t). unfold hold in At. destruct (hnd (th s t)) as [f|] eqn:Hn.
    + destruct f; cbn in E; try discriminate.
      * left. exists d. split; [reflexivity|]. destruct (own s) as [o|] eqn:O; [|discriminate].
        destruct (Nat.eqb_spec o t) as [->|]; [|discriminate].
        destruct At as [_ At]. specialize (At eq_refl). cbn in At. rewrite orb_false_r in At. exact At.
      * right. split; [reflexivity|]. destruct (body (th s t)) as [[]|]; try discriminate; reflexivity.
    + destruct (body (th s t)) as [f|] eqn:Bo; [|discriminate].
      destruct f; cbn in E; try discriminate.
      destruct (own s) as [o|] eqn:O; [|discriminate]. destruct (Nat.eqb_spec o t) as [->|]; [|discriminate].
      destruct At as [_ At]. specialize (At eq_refl). discriminate At.
  - destruct (hnd (th s t)); discriminate.
  - destruct (idle (th s 0)); discriminate.
Qed.

Definition quiet (s : st) : Prop := forall t, hnd (th s t) <> None ->
  locked (body (th s t)) = false /\ inside (body (th s t)) = false.

Lemma quiet_good : forall h x s, reach_good h x s -> quiet s.
Proof.
  intros h x s R. induction R as [c|s l s' R Q G E]; [intros t N; cbn in N; congruence|].
  intros u N. destruct l as [t e p|t|t|t|]; cbn in E.
  - destruct (idle (th s t)) eqn:D; [|discriminate]. injection E as <-. apply idle_none in D as [D1 D2].
    rewrite th_body in N |- *. destruct (Nat.eqb_spec u t) as [Eu|Eu]; [rewrite ?Eu in *; cbn in N; congruence|apply Q, N].
  - destruct (idle (th s t)) eqn:D; [|discriminate]. injection E as <-. apply idle_none in D as [D1 D2].
    rewrite th_body in N |- *. destruct (Nat.eqb_spec u t) as [Eu|Eu]; [rewrite ?Eu in *; cbn in N; congruence|apply Q, N].
  - destruct (hnd (th s t)) as [f|] eqn:Hn.
    + destruct (call_step h t f (body (th s t)) s) as [[[s1 f1]| |]|] eqn:C; try discriminate. cbn in E. injection E as <-.
      apply call_own in C as (T & _ & _). rewrite th_hnd, T in N |- *.
      destruct (Nat.eqb_spec u t) as [Eu|Eu]; [rewrite ?Eu in *; cbn; apply Q; congruence|apply Q, N].
    + destruct (body (th s t)) as [f|] eqn:Bo; [|discriminate].
      destruct (call_step h t f None s) as [[[s1 f1]| |]|] eqn:C; try discriminate. cbn in E. injection E as <-.
      apply call_own in C as (T & _ & _). rewrite th_body, T in N |- *.
      destruct (Nat.eqb_spec u t) as [Eu|Eu]; [rewrite ?Eu in *; cbn in N; congruence|apply Q, N].
  - destruct (hnd (th s t)) eqn:D; [discriminate|]. injection E as <-. rewrite th_hnd in N |- *.
    destruct (Nat.eqb_spec u t) as [Eu|Eu]; [rewrite ?Eu in *; exact G|apply Q, N].
  - destruct (idle (th s 0)) eqn:D; [|discriminate]. injection E as <-. apply Q, N.
Qed.

Lemma never_undefined : forall h x l s, reach_good h x s -> step h x l s <> Some UB.
Proof.
  intros h x l s R E. apply (undefined_only h x l s (good_reach _ _ _ R)) in E as (t & _ & D).
  destruct D as [(d & A & B)|(A & B)]; destruct (quiet_good _ _ _ R t) as [Q1 Q2]; congruence.
Qed.

Lemma undefined_indeed : forall h x s t, reach h x s ->
  (exists d, hnd (th s t) = Some (PLock d) /\ locked (body (th s t)) = true) \/
  (hnd (th s t) = Some PLogB /\ inside (body (th s t)) = true) ->
  step h x (LStep t) s = Some UB.
Proof.
  intros h x s t R [(d & A & B)|(A & B)].
  - apply inv_reach in R as [I _]. assert (O : own s = Some t) by (apply I; unfold hold; rewrite B; reflexivity).
    cbn. rewrite A. cbn. rewrite O, Nat.eqb_refl. reflexivity.
  - cbn. rewrite A. destruct (body (th s t)) as [[]|]; cbn in B; try discriminate; reflexivity.
Qed.
