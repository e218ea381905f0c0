(** Triggers of several threads between two cycles: the lowest destination wins. *)
From Verif Require Import Prelude SafetyModel SafetySpec SafetyRaceModel SafetyProofs SafetyProofs2.
Open Scope Z_scope.

Definition dest_of (c : call) : lref := match c with Read d => d | Tested d _ => d end.
Definition test (h : heap) (s : rstate) (d : lref) : bool :=
  Nat.eqb (rnxt s) (rcur s) || (lid (h d) <? lid (h (rnxt s))).
Notation ntested l := (length (filter is_tested l)).

Lemma nth_split_call : forall (l : list call) i c, nth_error l i = Some c ->
  exists a b, l = a ++ c :: b /\ (forall x, set_nth l i x = a ++ x :: b) /\ del_nth l i = a ++ b.
Proof.
  induction l as [|y l IH]; intros [|i] c H; cbn in H; try discriminate.
  - injection H as ->. exists [], l. auto.
  - destruct (IH i c H) as (a & b & -> & S & D). exists (y :: a), b. cbn. rewrite D. split; [auto|]. split; [|auto].
    intros x. now rewrite S.
Qed.

(** [D]: the destinations of all calls so far. *)
Definition low_inv (h : heap) (c : lref) (D : list lref) (s : rstate) : Prop :=
  rcur s = c /\ (rnxt s = c \/ In (rnxt s) D) /\
  (ntested (rcalls s) <= 1)%nat /\
  (forall d w, In (Tested d w) (rcalls s) -> w = test h s d) /\
  (forall d, In d (map dest_of (rcalls s)) -> In d D) /\
  (forall d, In d D -> In d (map dest_of (rcalls s)) \/ (rnxt s <> c /\ lid (h (rnxt s)) <= lid (h d))).

Definition reads (h : heap) (c : lref) (os : list rop) : list lref :=
  flat_map (fun o => match o with
    | RRead e p => match getDestLevelForEvent (h c) e p with Some d => [d] | None => [] end
    | _ => [] end) os.

Lemma low_step : forall h c D s o s', low_inv h c D s -> o <> RAdopt -> rstep h s o = Some s' ->
  ~ In c (D ++ reads h c [o]) -> low_inv h c (D ++ reads h c [o]) s'.
Proof.
  intros h c D s o s' (Hc & Hn & Ht & Hw & Hd & HD) No H Nc. unfold reads in *. destruct o as [e p|i|i|]; cbn in H, Nc; cbn [flat_map]; rewrite ?app_nil_r in *.
  - rewrite Hc in H. destruct (getDestLevelForEvent (h c) e p) as [d|]; injection H as <-; unfold low_inv; cbn.
    + split; [reflexivity|]. split; [destruct Hn; [auto|right; apply in_or_app; auto]|].
      split. { rewrite filter_app, app_length. cbn. lia. }
      split. { intros d' w I. apply in_app_or in I. destruct I as [I|[I|[]]]; [|discriminate]. rewrite (Hw _ _ I). unfold test. cbn. now rewrite Hc. }
      rewrite map_app. cbn. split.
      { intros d' I. apply in_app_or in I. apply in_or_app. destruct I as [I|I]; auto. }
      intros d' I. apply in_app_or in I. destruct I as [I|I].
      * destruct (HD d' I) as [J|J]; [left; apply in_or_app; auto|auto].
      * left. apply in_or_app. auto.
    + rewrite app_nil_r. repeat split; auto.
  - destruct (existsb is_tested (rcalls s)) eqn:Ex; [discriminate|].
    destruct (nth_error (rcalls s) i) as [[d|d w]|] eqn:En; try discriminate. injection H as <-.
    destruct (nth_split_call _ _ _ En) as (a & b & El & S & _).
    assert (F0 : filter is_tested (rcalls s) = []).
    { clear - Ex. induction (rcalls s) as [|x l IH]; [reflexivity|]. cbn in *. apply orb_false_iff in Ex. destruct Ex as [-> Ex]. auto. }
    assert (Nt : forall d' w', ~ In (Tested d' w') (rcalls s)).
    { intros d' w' I. assert (J : In (Tested d' w') (filter is_tested (rcalls s))) by (apply filter_In; auto). rewrite F0 in J. destruct J. }
    rewrite El in F0, Nt. unfold low_inv. cbn. rewrite S.
    assert (Em : forall x, dest_of x = d -> map dest_of (a ++ x :: b) = map dest_of (rcalls s)).
    { intros x Ex'. rewrite El, !map_app. cbn. now rewrite Ex'. }
    split; [exact Hc|]. split; [exact Hn|]. split.
    { rewrite filter_app in *. cbn in *. apply app_eq_nil in F0. destruct F0 as [-> ->]. cbn. lia. }
    split. { intros d' w I. apply in_app_or in I. destruct I as [I|[I|I]].
      - destruct (Nt d' w). apply in_or_app. auto.
      - injection I as <- <-. reflexivity.
      - destruct (Nt d' w). apply in_or_app. cbn. auto. }
    rewrite Em by reflexivity. auto.
  - destruct (nth_error (rcalls s) i) as [[d|d w]|] eqn:En; try discriminate. injection H as <-.
    destruct (nth_split_call _ _ _ En) as (a & b & El & _ & Dl).
    assert (Hwd : w = test h s d) by (apply Hw; rewrite El; apply in_or_app; cbn; auto).
    assert (F0 : filter is_tested (a ++ b) = []).
    { rewrite El, filter_app, app_length in Ht. cbn in Ht. rewrite filter_app.
      destruct (filter is_tested a); [|cbn in Ht; lia]. destruct (filter is_tested b); [reflexivity|cbn in Ht; lia]. }
    assert (Dd : In d D). { apply Hd. rewrite El, map_app. apply in_or_app. cbn. auto. }
    assert (dc : d <> c) by (intros ->; auto).
    unfold low_inv; cbn. rewrite Dl. split; [exact Hc|]. split; [destruct w; auto|]. split; [rewrite F0; cbn; lia|].
    split. { intros d' w' I. assert (J : In (Tested d' w') (filter is_tested (a ++ b))) by (apply filter_In; auto). rewrite F0 in J. destruct J. }
    split. { intros d' I. apply Hd. rewrite El. rewrite map_app in *. apply in_app_or in I. apply in_or_app. cbn. destruct I; auto. }
    assert (X : forall d', (rnxt s <> c /\ lid (h (rnxt s)) <= lid (h d')) -> (if w then d else rnxt s) <> c /\ lid (h (if w then d else rnxt s)) <= lid (h d')).
    { intros d' (N & L). rewrite Hwd. unfold test. destruct (Nat.eqb_spec (rnxt s) (rcur s)) as [E|E]; [congruence|]. cbn.
      destruct (lid (h d) <? lid (h (rnxt s))) eqn:Lt; [|auto]. apply Z.ltb_lt in Lt. split; [exact dc|lia]. }
    intros d' I. destruct (HD d' I) as [J|J]; [|right; auto].
    rewrite El, map_app in J. apply in_app_or in J. rewrite map_app. destruct J as [J|[J|J]].
    + left. apply in_or_app. auto.
    + cbn in J. subst d'. right. rewrite Hwd. unfold test. destruct (Nat.eqb_spec (rnxt s) (rcur s)) as [E|E]; cbn.
      * split; [exact dc|lia].
      * destruct (lid (h d) <? lid (h (rnxt s))) eqn:Lt; [split; [exact dc|lia]|]. apply Z.ltb_ge in Lt. split; [congruence|lia].
    + left. apply in_or_app. auto.
  - congruence.
Qed.

Lemma reads_app : forall h c a b, reads h c (a ++ b) = reads h c a ++ reads h c b.
Proof. intros. unfold reads. apply flat_map_app. Qed.

Lemma low_runs : forall h c os D s s', low_inv h c D s -> ~ In RAdopt os -> ~ In c (D ++ reads h c os) ->
  rruns h s os = Some s' -> low_inv h c (D ++ reads h c os) s'.
Proof.
  intros h c os. induction os as [|o os IH]; intros D s s' I Na Nc H.
  - injection H as <-. cbn. now rewrite app_nil_r.
  - cbn in H. destruct (rstep h s o) as [s1|] eqn:E; [|discriminate].
    change (o :: os) with ([o] ++ os) in *. rewrite reads_app, app_assoc in *.
    apply (IH _ s1 s').
    + apply (low_step h c D s o s1 I); auto.
      * intros ->. apply Na. left. reflexivity.
      * intros J. apply Nc. apply in_or_app. auto.
    + intros J. apply Na. apply in_or_app. auto.
    + exact Nc.
    + exact H.
Qed.

Lemma race_lowest : forall h c seen os s', ~ In RAdopt os ->
  rruns h {| rcur := c; rnxt := c; rcalls := []; rseen := seen |} os = Some s' -> rcalls s' = [] ->
  (forall e p d, In (RRead e p) os -> leads h c e p d -> d <> c) ->
  (rnxt s' = c \/ exists e p, In (RRead e p) os /\ leads h c e p (rnxt s')) /\
  (forall e p d, In (RRead e p) os -> leads h c e p d -> rnxt s' <> c /\ lid (h (rnxt s')) <= lid (h d)).
Proof.
  intros h c seen os s' Na H E Ns.
  assert (Rd : forall d, In d (reads h c os) <-> exists e p, In (RRead e p) os /\ leads h c e p d).
  { intros d. unfold reads. rewrite in_flat_map. split.
    - intros (o & Io & Id). destruct o as [e p|?|?|]; try destruct Id.
      destruct (getDestLevelForEvent (h c) e p) as [d'|] eqn:G; [|destruct Id]. destruct Id as [->|[]].
      exists e, p. split; [exact Io|]. apply getDest_leads. exact G.
    - intros (e & p & Io & L). exists (RRead e p). split; [exact Io|]. apply getDest_leads in L. rewrite L. left. reflexivity. }
  assert (I : low_inv h c ([] ++ reads h c os) s').
  { apply (low_runs h c os [] {| rcur := c; rnxt := c; rcalls := []; rseen := seen |} s'); auto.
    - unfold low_inv. cbn. repeat split; auto; try lia; intros ? [].
    - cbn. intros J. apply Rd in J. destruct J as (e & p & Io & L). now apply (Ns e p c Io L). }
  destruct I as (_ & Hn & _ & _ & _ & HD). cbn in Hn, HD. rewrite E in HD. split.
  - destruct Hn as [Hn|Hn]; [auto|]. right. apply Rd. exact Hn.
  - intros e p d Io L. destruct (HD d) as [[]|J]; [apply Rd; exists e, p; auto|exact J].
Qed.
