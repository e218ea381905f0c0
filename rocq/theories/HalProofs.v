(** Proofs about the signal registry. *)
From Coq Require Import String List Bool Arith Lia.
From Verif Require Import Prelude HalModel HalSpec.
Import ListNotations.
Open Scope list_scope.

Lemma ptr_eqb_spec p q : reflect (p = q) (ptr_eqb p q).
Proof.
  destruct p, q; cbn; try (constructor; congruence). destruct (Nat.eqb_spec n n0); constructor; congruence.
Qed.

Section P.
  Variable Ob : objects.
  Notation step := (step Ob).
  Notation run := (run Ob).

  Lemma run_app s os os' : run s (os ++ os') =
    let '(s1, rs) := run s os in let '(s2, rs') := run s1 os' in (s2, (rs ++ rs')%list).
  Proof.
    revert s. induction os as [|o os IH]; intros s; cbn [app HalModel.run].
    - destruct (run s os'); reflexivity.
    - destruct (step s o) as [s1 r]. rewrite IH. destruct (run s1 os) as [s2 rs]. destruct (run s2 os') as [s3 rs']. reflexivity.
  Qed.
  Lemma run_length s os : List.length (snd (run s os)) = List.length os.
  Proof.
    revert s. induction os as [|o os IH]; intros s; cbn [HalModel.run]; [reflexivity|].
    destruct (step s o) as [s1 r]. specialize (IH s1). destruct (run s1 os). cbn in *. now rewrite IH.
  Qed.
  Definition hist (s : side) (os : list op) : history := combine os (snd (run s os)).

  Lemma run_snoc s os o : run s (os ++ [o]) = (fst (step (fst (run s os)) o), (snd (run s os) ++ [snd (step (fst (run s os)) o)])%list).
  Proof. rewrite run_app. destruct (run s os) as [s1 rs]. cbn [HalModel.run]. cbn [fst snd]. destruct (step s1 o) as [s2 r]. reflexivity. Qed.
  Lemma hist_snoc s os o : hist s (os ++ [o]) = (hist s os ++ [(o, snd (step (fst (run s os)) o))])%list.
  Proof.
    unfold hist. rewrite run_snoc. cbn [snd]. pose proof (run_length s os) as L. revert L. generalize (snd (step (fst (run s os)) o)) (snd (run s os)). intros y.
    induction os as [|x os IH]; intros [|r rs] L; try discriminate; cbn; [reflexivity|]. f_equal. apply IH. now injection L.
  Qed.

  Definition bt (b : status) (e sh : bool) : Prop :=
    match b with Free => e = false /\ sh = false | Exclusive => e = true /\ sh = false | Shared => e = false /\ sh = true end.

  Record inv (h : history) (s : side) : Prop := {
    i_id : forall n a, tbl s n = Some (Some a) -> id_of Ob a = n;
    i_reg : forall n a, tbl s n = Some (Some a) <-> registered Ob h n a;
    i_track : forall n a, tbl s n = Some (Some a) -> bt (track n h) (excl s (Some a)) (shared s (Some a));
    i_free : forall n, tbl s n = None -> track n h = Free;
    i_set : forall a, excl s (Some a) = true \/ shared s (Some a) = true -> tbl s (id_of Ob a) = Some (Some a) }.

  Lemma track_snoc n h e : track n (h ++ [e]) = track1 n (track n h) e.
  Proof. unfold track. now rewrite fold_left_app. Qed.

  (** Everything a call can do to an inserted null entry. *)
  Lemma touch_tbl s n m : tbl (touch s n) m = match tbl s m with Some p => Some p | None => if String.eqb m n then Some None else None end.
  Proof.
    unfold touch. destruct (tbl s n) eqn:E; cbn [tbl].
    - destruct (tbl s m) eqn:F; [reflexivity|]. destruct (String.eqb_spec m n); [congruence|reflexivity].
    - unfold tbl_set. destruct (String.eqb_spec m n); [subst; now rewrite E|]. now destruct (tbl s m).
  Qed.
  Lemma touch_excl s n : excl (touch s n) = excl s.
  Proof. unfold touch. now destruct (tbl s n). Qed.
  Lemma touch_shared s n : shared (touch s n) = shared s.
  Proof. unfold touch. now destruct (tbl s n). Qed.
  Lemma touch_at s n m : at_ (touch s n) m = at_ s m.
  Proof. unfold at_. rewrite touch_tbl. destruct (tbl s m); [reflexivity|]. now destruct (String.eqb m n). Qed.

  Lemma touch_some s n m a : tbl (touch s n) m = Some (Some a) <-> tbl s m = Some (Some a).
  Proof. rewrite touch_tbl. destruct (tbl s m); [tauto|]. destruct (String.eqb m n); split; discriminate. Qed.
  Lemma touch_none s n m : tbl (touch s n) m = None <-> tbl s m = None /\ m <> n.
  Proof.
    rewrite touch_tbl. destruct (tbl s m); [split; [discriminate|intros [H _]; discriminate]|].
    destruct (String.eqb_spec m n); split; try discriminate; tauto.
  Qed.

  Lemma reg_snoc h o r n a : registered Ob (h ++ [(o, r)]) n a <-> registered Ob h n a \/ (id_of Ob a = n /\ o = Add (Some a) /\ r = Ret None).
  Proof.
    unfold registered. rewrite in_app_iff. cbn [In]. split.
    - intros [H [H'|[H'|[]]]]; [now left|]. right. split; [exact H|]. now injection H'.
    - intros [[H H']|[H [-> ->]]]; [tauto|]. split; [exact H|]. right. now left.
  Qed.

  Lemma at_some s n a : at_ s n = Some a <-> tbl s n = Some (Some a).
  Proof. unfold at_. destruct (tbl s n) as [p|]; [|split; discriminate]. split; [intros ->; reflexivity|]. intros H. now injection H. Qed.

  Lemma inv_step h s o : inv h s -> inv (h ++ [(o, snd (step s o))]) (fst (step s o)).
  Proof.
    intros I. destruct o as [p|m|w m e]; cbn [HalModel.step].
    - (* Add *)
      unfold do_add. destruct p as [b|]; [destruct (tbl s (id_of Ob b)) as [q|] eqn:E|]; cbn [fst snd].
      + constructor; try apply I.
        * intros n a. rewrite reg_snoc, (i_reg _ _ I). split; [tauto|]. intros [?|(_ & _ & ?)]; [assumption|discriminate].
        * intros n a H. rewrite track_snoc. now apply I.
        * intros n H. rewrite track_snoc. now apply I.
      + assert (Fb : excl s (Some b) = false /\ shared s (Some b) = false).
        { split; [destruct (excl s (Some b)) eqn:F|destruct (shared s (Some b)) eqn:F]; try reflexivity;
          rewrite (i_set _ _ I b) in E by tauto; discriminate. }
        constructor; cbn [tbl excl shared].
        * intros n a. unfold tbl_set. destruct (String.eqb_spec n (id_of Ob b)); [intros H; congruence|apply (i_id _ _ I)].
        * intros n a. rewrite reg_snoc, <- (i_reg _ _ I). unfold tbl_set. destruct (String.eqb_spec n (id_of Ob b)) as [->|Hn].
          -- split; [intros H; right; injection H as ->; auto|]. intros [H|(_ & H & _)]; [congruence|]. now injection H as ->.
          -- split; [tauto|]. intros [H|(H & H' & _)]; [assumption|]. injection H' as ->. congruence.
        * intros n a. unfold tbl_set. rewrite track_snoc. cbn [track1]. destruct (String.eqb_spec n (id_of Ob b)) as [->|Hn].
          -- intros H. injection H as <-. rewrite (i_free _ _ I) by assumption. exact Fb.
          -- apply (i_track _ _ I).
        * intros n. unfold tbl_set. rewrite track_snoc. cbn [track1]. destruct (String.eqb_spec n (id_of Ob b)); [discriminate|apply (i_free _ _ I)].
        * intros a H. unfold tbl_set. pose proof (i_set _ _ I a H) as G. destruct (String.eqb_spec (id_of Ob a) (id_of Ob b)) as [Q|]; [congruence|assumption].
      + constructor; try apply I.
        * intros n a. rewrite reg_snoc, (i_reg _ _ I). split; [tauto|]. intros [?|(_ & ? & _)]; [assumption|discriminate].
        * intros n a H. rewrite track_snoc. now apply I.
        * intros n H. rewrite track_snoc. now apply I.
    - (* Release *)
      unfold do_release. rewrite touch_at, touch_shared. cbn [fst snd].
      set (p := at_ s m). set (sh := shared s p).
      set (s1 := if sh then _ else touch s m).
      assert (Htb : tbl s1 = tbl (touch s m)) by (unfold s1; destruct sh; reflexivity).
      assert (Hex : excl s1 = excl s) by (unfold s1; destruct sh; cbn [excl]; apply touch_excl).
      assert (Hsh : forall q, shared s1 q = if ptr_eqb q p then false else shared s q).
      { intros q. unfold s1. destruct sh eqn:Es; cbn [shared]; [reflexivity|]. rewrite touch_shared.
        destruct (ptr_eqb_spec q p) as [->|]; [assumption|reflexivity]. }
      clearbody s1. set (ex := excl s1 p). set (s2 := if ex then _ else s1).
      assert (Htb2 : tbl s2 = tbl (touch s m)) by (unfold s2; destruct ex; exact Htb).
      assert (Hex2 : forall q, excl s2 q = if ptr_eqb q p then false else excl s q).
      { intros q. unfold s2. destruct ex eqn:Ee; cbn [excl]; rewrite ?Hex.
        - unfold set_del. reflexivity.
        - destruct (ptr_eqb_spec q p) as [->|]; [|reflexivity]. unfold ex in Ee. now rewrite Hex in Ee. }
      assert (Hsh2 : forall q, shared s2 q = if ptr_eqb q p then false else shared s q) by (intros q; unfold s2; destruct ex; apply Hsh).
      assert (Hex' : ex = excl s p) by (unfold ex; now rewrite Hex). clearbody s2. clearbody ex. subst ex.
      assert (Hno : forall r, track1 m (track m h) (Release m, r) = Free \/ r = Exc) by (intros []; cbn; rewrite ?String.eqb_refl; auto).
      constructor.
      + intros n a H. rewrite Htb2, touch_some in H. now apply (i_id _ _ I).
      + intros n a. rewrite Htb2, touch_some, reg_snoc, (i_reg _ _ I). split; [tauto|]. intros [?|(_ & ? & _)]; [assumption|discriminate].
      + intros n a H. rewrite Htb2, touch_some in H. rewrite track_snoc, Hex2, Hsh2.
        pose proof (i_track _ _ I n a H) as G.
        destruct (String.eqb_spec m n) as [->|Hn].
        * assert (p = Some a) by (now apply at_some). destruct (ptr_eqb_spec (Some a) p) as [_|]; [|congruence].
          unfold sh. rewrite H0. cbn [track1]. destruct (shared s (Some a)) eqn:Es, (excl s (Some a)) eqn:Ee; cbn [orb]; rewrite ?String.eqb_refl; cbn; try tauto.
        * assert (p <> Some a). { intros Q. apply at_some in Q. apply (i_id _ _ I) in Q, H. congruence. }
          destruct (ptr_eqb_spec (Some a) p); [congruence|]. cbn [track1]. destruct (_ || _); [|exact G]. destruct (String.eqb_spec m n); [congruence|exact G].
      + intros n H. rewrite Htb2, touch_none in H. destruct H as [H Hn]. rewrite track_snoc. cbn [track1].
        destruct (_ || _); [|now apply (i_free _ _ I)]. destruct (String.eqb_spec m n); [congruence|now apply (i_free _ _ I)].
      + intros a H. rewrite Htb2, touch_some. rewrite Hex2, Hsh2 in H. destruct (ptr_eqb (Some a) p); [intuition discriminate|now apply (i_set _ _ I)].
    - (* Get *)
      unfold do_get. rewrite touch_at, touch_excl, touch_shared. set (p := at_ s m).
      assert (K : forall r, (r = Exc) -> inv (h ++ [(Get w m e, r)]) (touch s m)).
      { intros r ->. constructor.
        + intros n a H. rewrite touch_some in H. now apply (i_id _ _ I).
        + intros n a. rewrite touch_some, reg_snoc, (i_reg _ _ I). split; [tauto|]. intros [?|(_ & ? & _)]; [assumption|discriminate].
        + intros n a H. rewrite touch_some in H. rewrite track_snoc, touch_excl, touch_shared. now apply I.
        + intros n H. rewrite touch_none in H. rewrite track_snoc. now apply I.
        + intros a H. rewrite touch_some. rewrite touch_excl, touch_shared in H. now apply (i_set _ _ I). }
      destruct (casts Ob w p); cbn [negb]; [|now apply K].
      destruct (excl s p) eqn:Ee; [now apply K|].
      assert (P1 : forall n a, tbl s n = Some (Some a) -> m <> n -> ptr_eqb (Some a) p = false).
      { intros n a H Hn. destruct (ptr_eqb_spec (Some a) p) as [Q|]; [|reflexivity]. symmetry in Q. apply at_some in Q. apply (i_id _ _ I) in Q, H. congruence. }
      assert (P2 : forall a, tbl s m = Some (Some a) -> p = Some a) by (intros a H; now apply at_some).
      assert (P3 : forall a, p = Some a -> tbl s m = Some (Some a) /\ id_of Ob a = m).
      { intros a H. apply at_some in H. split; [exact H|now apply (i_id _ _ I)]. }
      clearbody p.
      destruct e; [destruct (shared s p) eqn:Es; [now apply K|]|]; cbn [fst snd]; constructor; cbn [tbl excl shared].
      + intros n a H. rewrite touch_some in H. now apply (i_id _ _ I).
      + intros n a. rewrite touch_some, reg_snoc, (i_reg _ _ I). split; [tauto|]. intros [?|(_ & ? & _)]; [assumption|discriminate].
      + intros n a H. rewrite touch_some in H. rewrite track_snoc. cbn [track1]. unfold set_add. destruct (String.eqb_spec m n) as [->|Hn].
        * apply P2 in H. subst p. destruct (ptr_eqb_spec (Some a) (Some a)); [|congruence]. cbn. auto.
        * rewrite (P1 _ _ H Hn). now apply I.
      + intros n H. rewrite touch_none in H. rewrite track_snoc. cbn [track1]. destruct (String.eqb_spec m n); [intuition congruence|now apply (i_free _ _ I)].
      + intros a H. rewrite touch_some. unfold set_add in H. destruct (ptr_eqb_spec (Some a) p) as [Q|]; [|now apply (i_set _ _ I)].
        symmetry in Q. apply P3 in Q. destruct Q as [Q ->]. exact Q.
      + intros n a H. rewrite touch_some in H. now apply (i_id _ _ I).
      + intros n a. rewrite touch_some, reg_snoc, (i_reg _ _ I). split; [tauto|]. intros [?|(_ & ? & _)]; [assumption|discriminate].
      + intros n a H. rewrite touch_some in H. rewrite track_snoc. cbn [track1]. unfold set_add. destruct (String.eqb_spec m n) as [->|Hn].
        * apply P2 in H. subst p. destruct (ptr_eqb_spec (Some a) (Some a)); [|congruence]. cbn. auto.
        * rewrite (P1 _ _ H Hn). now apply I.
      + intros n H. rewrite touch_none in H. rewrite track_snoc. cbn [track1]. destruct (String.eqb_spec m n); [intuition congruence|now apply (i_free _ _ I)].
      + intros a H. rewrite touch_some. unfold set_add in H. destruct (ptr_eqb_spec (Some a) p) as [Q|]; [|now apply (i_set _ _ I)].
        symmetry in Q. apply P3 in Q. destruct Q as [Q ->]. exact Q.
  Qed.

  Lemma inv0 : inv [] side0.
  Proof.
    constructor; cbn; try discriminate; try reflexivity.
    - intros n a. split; [discriminate|]. intros [_ []].
    - intros a [H|H]; discriminate.
  Qed.
  Lemma inv_run os : inv (hist side0 os) (fst (run side0 os)).
  Proof.
    induction os as [|o os IH] using rev_ind; [exact inv0|]. rewrite hist_snoc, run_snoc. cbn [fst]. now apply inv_step.
  Qed.

  Lemma casts_fits w a : casts Ob w (Some a) = true <-> fits w (kind_of Ob a).
  Proof. destruct w; cbn; [tauto|destruct (kind_of Ob a); cbn; intuition congruence|destruct (kind_of Ob a); cbn; intuition congruence]. Qed.

  (** What the next call on a registered signal does, by its claim. *)
  Definition next_get (os : list op) (w : want) (n : string) (e : bool) : result := snd (step (fst (run side0 os)) (Get w n e)).
  Definition next_release (os : list op) (n : string) : result := snd (step (fst (run side0 os)) (Release n)).
  Lemma get_registered os n a w e : registered Ob (hist side0 os) n a ->
    next_get os w n e =
      if casts Ob w (Some a) then match track n (hist side0 os), e with Free, _ | Shared, false => Ret (Some a) | _, _ => Exc end else Exc.
  Proof.
    intros R. pose proof (inv_run os) as I. apply (i_reg _ _ I) in R. unfold next_get. cbn [HalModel.step]. unfold do_get.
    rewrite touch_at, touch_excl, touch_shared. rewrite (proj2 (at_some _ n a) R). pose proof (i_track _ _ I n a R) as G.
    destruct (casts Ob w (Some a)); [|reflexivity]. cbn [negb].
    destruct (track n (hist side0 os)); cbn in G; destruct G as [-> G]; try rewrite G; now destruct e.
  Qed.
  Lemma release_registered os n a : registered Ob (hist side0 os) n a ->
    next_release os n = match track n (hist side0 os) with Free => Exc | _ => Ret None end.
  Proof.
    intros R. pose proof (inv_run os) as I. apply (i_reg _ _ I) in R. unfold next_release. cbn [HalModel.step]. unfold do_release. cbn [snd].
    rewrite touch_at, touch_shared. rewrite (proj2 (at_some _ n a) R). pose proof (i_track _ _ I n a R) as G.
    destruct (shared (fst (run side0 os)) (Some a)); cbn [excl]; rewrite touch_excl; destruct (track n (hist side0 os)); cbn in G; intuition; try discriminate; now rewrite H.
  Qed.

  (** A failing request changes no claim and no registered object. *)
  Lemma get_fault s w n e : snd (step s (Get w n e)) = Exc -> let s' := fst (step s (Get w n e)) in
    excl s' = excl s /\ shared s' = shared s /\ forall m a, tbl s' m = Some (Some a) <-> tbl s m = Some (Some a).
  Proof.
    cbn [HalModel.step]. unfold do_get. intros H. 
    assert (K : excl (touch s n) = excl s /\ shared (touch s n) = shared s /\ forall m a, tbl (touch s n) m = Some (Some a) <-> tbl s m = Some (Some a)).
    { split; [apply touch_excl|]. split; [apply touch_shared|]. intros; apply touch_some. }
    destruct (negb _); [exact K|]. destruct (excl _ _); [exact K|]. destruct e; [destruct (shared _ _); [exact K|discriminate]|discriminate].
  Qed.

  (** ** Unknown names *)
  (** Two states that differ at most in null entries for the names in [x]. *)
  Record like (x : string) (s s' : side) : Prop := {
    l_ex : forall p, excl s p = excl s' p; l_sh : forall p, shared s p = shared s' p;
    l_at : forall n, at_ s n = at_ s' n; l_tbl : forall n, n <> x -> (tbl s n = None <-> tbl s' n = None) }.
  Lemma like_refl x s : like x s s.
  Proof. constructor; intros; tauto. Qed.
  Lemma like_touch x s : like x s (touch s x).
  Proof.
    constructor; intros.
    - now rewrite touch_excl.
    - now rewrite touch_shared.
    - now rewrite touch_at.
    - rewrite touch_none. tauto.
  Qed.
  Lemma like_touch2 x s s' n : like x s s' -> like x (touch s n) (touch s' n).
  Proof.
    intros [A B C D]. constructor; intros.
    - now rewrite !touch_excl.
    - now rewrite !touch_shared.
    - now rewrite !touch_at.
    - rewrite !touch_none. specialize (D n0). tauto.
  Qed.
  Lemma like_set x s s' e e' h h' : like x s s' -> (forall p, e p = e' p) -> (forall p, h p = h' p) ->
    like x {| tbl := tbl s; excl := e; shared := h |} {| tbl := tbl s'; excl := e'; shared := h' |}.
  Proof. intros [A B C D] E H. constructor; cbn; auto. Qed.

  (** [Add] of an object called [x] is the only call that can see the difference. *)
  Definition adds (x : string) (o : op) : Prop := match o with Add (Some a) => id_of Ob a = x | _ => False end.
  Lemma like_step x s s' o : like x s s' -> ~ adds x o -> snd (step s o) = snd (step s' o) /\ like x (fst (step s o)) (fst (step s' o)).
  Proof.
    intros L Hx. destruct o as [p|m|w m e]; cbn [HalModel.step].
    - unfold do_add. destruct p as [a|]; [|now split]. cbn in Hx. pose proof (l_tbl _ _ _ L (id_of Ob a) Hx) as D.
      destruct (tbl s (id_of Ob a)) eqn:E, (tbl s' (id_of Ob a)) eqn:E'; try (destruct D as [D1 D2]; discriminate (D1 eq_refl) || discriminate (D2 eq_refl)).
      + now split.
      + split; [reflexivity|]. cbn [fst]. destruct L as [A B C D']. constructor; cbn [excl shared]; auto.
        * intros n. specialize (C n). unfold at_ in *. cbn [tbl]. unfold tbl_set. now destruct (String.eqb n (id_of Ob a)).
        * intros n Hn. cbn [tbl]. unfold tbl_set. destruct (String.eqb n (id_of Ob a)); [split; discriminate|now apply D'].
    - unfold do_release. rewrite !touch_at, !touch_shared. pose proof (like_touch2 x s s' m L) as LT. destruct L as [A B C D]. rewrite <- C, <- B.
      set (p := at_ s m). destruct (shared s p); cbn [excl tbl shared orb fst snd]; rewrite ?touch_excl, <- ?A.
      + split; [reflexivity|]. destruct (excl s p); apply like_set; auto; intros q; unfold set_del; destruct (ptr_eqb q p); rewrite ?touch_excl, ?touch_shared; auto.
      + split; [reflexivity|]. destruct (excl s p); [|exact LT]. apply like_set; auto; intros q; unfold set_del; destruct (ptr_eqb q p); rewrite ?touch_excl, ?touch_shared; auto.
    - unfold do_get. rewrite !touch_at, !touch_shared, !touch_excl. pose proof (like_touch2 x s s' m L) as LT. destruct L as [A B C D]. rewrite <- C, <- B, <- A.
      set (p := at_ s m). destruct (casts Ob w p); cbn [negb]; [|now split]. destruct (excl s p); [now split|].
      destruct e; [destruct (shared s p); [now split|]|]; (split; [reflexivity|]); cbn [fst]; apply like_set; auto; intros q; unfold set_add; destruct (ptr_eqb q p); rewrite ?touch_excl, ?touch_shared; auto.
  Qed.
  Lemma like_run x os : forall s s', like x s s' -> (forall o, In o os -> ~ adds x o) -> snd (run s os) = snd (run s' os).
  Proof.
    induction os as [|o os IH]; intros s s' L H; [reflexivity|]. cbn [HalModel.run].
    destruct (like_step x s s' o L) as [E L']; [apply H; now left|].
    destruct (step s o) as [s1 r], (step s' o) as [s1' r']. cbn [fst snd] in *.
    specialize (IH s1 s1' L'). destruct (run s1 os), (run s1' os). cbn [snd] in *. rewrite E, IH; [reflexivity|]. intros; apply H; now right.
  Qed.

  Definition unknown (os : list op) (n : string) : Prop := forall a, ~ registered Ob (hist side0 os) n a.
  Lemma unknown_at os n : unknown os n -> at_ (fst (run side0 os)) n = None.
  Proof.
    intros U. destruct (at_ (fst (run side0 os)) n) as [a|] eqn:E; [|reflexivity]. apply at_some in E. apply (i_reg _ _ (inv_run os)) in E. now apply U in E.
  Qed.
  Lemma typed_unknown os n w e : w <> RAny -> unknown os n -> next_get os w n e = Exc.
  Proof.
    intros Hw U. apply unknown_at in U. unfold next_get. cbn [HalModel.step]. unfold do_get. rewrite touch_at, U. destruct w; [congruence| |]; reflexivity.
  Qed.
  Lemma typed_unknown_trace os n w e os' : w <> RAny -> unknown os n -> (forall o, In o os' -> ~ adds n o) ->
    snd (run (fst (run side0 (os ++ [Get w n e]))) os') = snd (run (fst (run side0 os)) os').
  Proof.
    intros Hw U H. symmetry. apply (like_run n); [|exact H]. rewrite run_snoc. cbn [fst HalModel.step]. unfold do_get. rewrite touch_at. apply unknown_at in U. rewrite U.
    destruct w; [congruence| |]; apply like_touch.
  Qed.
End P.

(** ** The theorems in their final form *)
Lemma claims_ok Ob os n a : registered Ob (hist Ob side0 os) n a ->
  match track n (hist Ob side0 os) with
  | Free => forall w e, fits w (kind_of Ob a) -> next_get Ob os w n e = Ret (Some a)
  | Exclusive => forall w e, next_get Ob os w n e = Exc
  | Shared => forall w, next_get Ob os w n true = Exc /\ (fits w (kind_of Ob a) -> next_get Ob os w n false = Ret (Some a))
  end.
Proof.
  intros R. pose proof (fun w e => get_registered Ob os n a w e R) as G. destruct (track n (hist Ob side0 os)).
  - intros w e F. rewrite G. apply casts_fits in F. now rewrite F.
  - intros w e. rewrite G. now destruct (casts Ob w (Some a)).
  - intros w. rewrite !G. split; [now destruct (casts Ob w (Some a))|]. intros F. apply casts_fits in F. now rewrite F.
Qed.
(** Without a release of [n] the users are still known. *)
Lemma users_track n h : (forall r, ~ In (Release n, r) h) -> 0 < users n h -> track n h <> Free.
Proof.
  unfold users, track. induction h as [|e h IH] using rev_ind; [cbn; lia|]. rewrite !fold_left_app. cbn [fold_left].
  set (c := fold_left (count1 n) h 0) in *. set (t := fold_left (track1 n) h Free) in *. intros Hr Hu.
  assert (Hr' : forall r, ~ In (Release n, r) h) by (intros r Hi; apply (Hr r); apply in_app_iff; now left).
  destruct e as [[p|m|w m x] [q|]]; cbn [count1 track1] in *; try (now apply IH); try (destruct x; now apply IH).
  - destruct (String.eqb_spec m n) as [->|]; [|now apply IH]. exfalso. apply (Hr (Ret q)). apply in_app_iff. right. now left.
  - destruct (String.eqb m n); [destruct x; discriminate|]. destruct x; now apply IH.
Qed.
Lemma shared_kept Ob os n a w : registered Ob (hist Ob side0 os) n a -> (forall r, ~ In (Release n, r) (hist Ob side0 os)) -> 0 < users n (hist Ob side0 os) ->
  next_get Ob os w n true = Exc.
Proof.
  intros R Hr Hu. pose proof (users_track n _ Hr Hu) as T. pose proof (claims_ok Ob os n a R) as C. destruct (track n (hist Ob side0 os)); [congruence|apply C|apply C].
Qed.
(** One release gives the signal free however many users there are. *)
Lemma one_release Ob os n a w e : registered Ob (hist Ob side0 os) n a -> track n (hist Ob side0 os) <> Free -> fits w (kind_of Ob a) ->
  next_get Ob (os ++ [Release n]) w n e = Ret (Some a).
Proof.
  intros R T F. assert (R' : registered Ob (hist Ob side0 (os ++ [Release n])) n a).
  { rewrite hist_snoc. destruct R as [E I]. split; [exact E|]. apply in_app_iff. now left. }
  pose proof (claims_ok Ob _ n a R') as C. rewrite hist_snoc, track_snoc in C.
  change (snd (step Ob (fst (run Ob side0 os)) (Release n))) with (next_release Ob os n) in C.
  rewrite (release_registered Ob os n a R) in C. cbn [track1] in C.
  destruct (track n (hist Ob side0 os)); [congruence| |]; cbn [track1] in C; rewrite String.eqb_refl in C; now apply C.
Qed.
(** Typed access: what is returned is the object registered under the name, of the right type. *)
Lemma typed_ok Ob os n w e p : w <> RAny -> next_get Ob os w n e = Ret p -> exists a, p = Some a /\ registered Ob (hist Ob side0 os) n a /\ fits w (kind_of Ob a).
Proof.
  intros Hw H. unfold next_get in H. cbn [step] in H. unfold do_get in H. rewrite touch_at in H.
  destruct (at_ (fst (run Ob side0 os)) n) as [a|] eqn:E.
  - exists a. destruct (casts Ob w (Some a)) eqn:C; [|discriminate]. cbn [negb] in H.
    split; [|split; [apply at_some in E; now apply (i_reg _ _ _ (inv_run Ob os)) in E|now apply casts_fits]].
    destruct (excl _ _); [discriminate|]. destruct e; [destruct (shared _ _); [discriminate|]|]; cbn in H; congruence.
  - destruct w; [congruence|discriminate|discriminate].
Qed.
(** Inputs and outputs do not influence each other. *)
Lemma sides_independent Oi Oo h o : outs (fst (hal_step Oi Oo h (inl o))) = outs h /\ ins (fst (hal_step Oi Oo h (inr o))) = ins h.
Proof. cbn [hal_step]. destruct (step Oi (ins h) o), (step Oo (outs h) o). split; reflexivity. Qed.
(** A name is registered at most once. *)
Lemma registered_once Ob os n a b : registered Ob (hist Ob side0 os) n a -> registered Ob (hist Ob side0 os) n b -> a = b.
Proof. intros A B. apply (i_reg _ _ _ (inv_run Ob os)) in A, B. rewrite A in B. now injection B. Qed.
