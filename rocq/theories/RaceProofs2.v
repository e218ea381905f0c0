(** * Threads never block each other for good *)
From Coq Require Import List String Bool Arith Lia.
From Verif Require Import RaceModel RaceSpec RaceProofs.
Import ListNotations.
Local Open Scope nat_scope.

(** The mutex of the safety system is taken last. *)
Definition rank (m : obj) : nat := if m =? 0 then 1 else 0.

(** [h]: the mutexes owned, the last one first. *)
Fixpoint ord (h : list obj) (l : list act) : Prop :=
  match l with
  | [] => h = []
  | ALock m :: l => (forall m', In m' h -> rank m' < rank m) /\ ord (m :: h) l
  | AUnlock m :: l => exists h', h = m :: h' /\ ~ In m h' /\ ord h' l
  | ARead _ :: l | AWrite _ :: l => ord h l
  | ABegin :: l | AEnd :: l => h = [] /\ ord [] l
  end.

Definition leq (h h' : list obj) : bool := if list_eq_dec Nat.eq_dec h h' then true else false.

Lemma leq_true h h' : leq h h' = true -> h = h'.
Proof. unfold leq. destruct (list_eq_dec Nat.eq_dec h h'); congruence. Qed.
Lemma leq_refl h : leq h h = true.
Proof. unfold leq. destruct (list_eq_dec Nat.eq_dec h h); congruence. Qed.

Definition above (m : obj) (h : list obj) : bool := forallb (fun m' => rank m' <? rank m) h.

Lemma above_spec m h : above m h = true -> forall m', In m' h -> rank m' < rank m.
Proof. unfold above. rewrite forallb_forall. intros H m' I. apply Nat.ltb_lt. auto. Qed.

Definition hjoin (p q : option (option (list obj))) : option (option (list obj)) :=
  match p, q with
  | Some None, r | r, Some None => r
  | Some (Some h), Some (Some h') => if leq h h' then Some (Some h) else None
  | _, _ => None
  end.

Fixpoint flow (rb h : list obj) (c : cmd) : option (option (list obj)) :=
  match c with
  | Skip | Rd _ | Wr _ => Some (Some h)
  | Lk m => if above m h then Some (Some (m :: h)) else None
  | Un m => match h with
            | m' :: h' => if (m =? m') && above m h' then Some (Some h') else None
            | [] => None
            end
  | Sq a b => match flow rb h a with
              | Some (Some h') => flow rb h' b
              | r => r
              end
  | Alt a b => hjoin (flow rb h a) (flow rb h b)
  | Rep a => match flow rb h a with
             | Some (Some h') => if leq h h' then Some (Some h) else None
             | Some None => Some (Some h)
             | None => None
             end
  | Guard m a => if above m h && leq h rb
                 then match flow (m :: h) (m :: h) a with
                      | Some (Some h') => if leq h' (m :: h) then Some (Some h) else None
                      | r => r
                      end
                 else None
  | Throw => if leq h rb then Some None else None
  end.

Lemma above_notin m h : above m h = true -> ~ In m h.
Proof. intros A I. apply (above_spec _ _ A) in I. lia. Qed.

Lemma flow_sound c l r : exec c l r -> forall rb h res,
  flow rb h c = Some res ->
  if r then forall k, ord rb k -> ord h (l ++ k)
  else exists h', res = Some h' /\ forall k, ord h' k -> ord h (l ++ k).
Proof.
  induction 1 as [ | x | x | m | m | a b l k r Ha IHa Hb IHb | a b l Ha IHa
                 | a b l r Ha IHa | a b l r Hb IHb | a | a l k r Ha IHa Hb IHb | a l Ha IHa
                 | m a l r Ha IHa | ];
  intros rb h res E; cbn [flow] in E.
  - inversion E; subst. eauto.
  - inversion E; subst. eauto.
  - inversion E; subst. eauto.
  - destruct (above m h) eqn:A; inversion E; subst. exists (m :: h). split; auto.
    intros k K. cbn. split; [exact (above_spec _ _ A)|exact K].
  - destruct h as [|m' h]; [discriminate|]. destruct (Nat.eqb_spec m m') as [<-|]; [|discriminate].
    cbn in E. destruct (above m h) eqn:A; [|discriminate].
    inversion E; subst. exists h. split; auto. intros k K. cbn. exists h.
    split; [reflexivity|]. split; [|exact K]. now apply above_notin.
  - destruct (flow rb h a) as [[h'|]|] eqn:E1; try discriminate.
    + destruct (IHa _ _ _ E1) as (h1 & Q & G). inversion Q; subst h1.
      specialize (IHb _ _ _ E). destruct r.
      * intros kk K. rewrite <- app_assoc. auto.
      * destruct IHb as (h2 & Q2 & G2). exists h2. split; [exact Q2|].
        intros kk K. rewrite <- app_assoc. auto.
    + destruct (IHa _ _ _ E1) as (h1 & Q & G). discriminate Q.
  - destruct (flow rb h a) as [[h'|]|] eqn:E1; try discriminate; exact (IHa _ _ _ E1).
  - destruct (flow rb h a) as [pa|] eqn:E1;
      [|destruct (flow rb h b) as [[?|]|]; cbn in E; discriminate].
    specialize (IHa _ _ _ E1). destruct r; [exact IHa|].
    destruct IHa as (h1 & -> & G). cbn in E.
    destruct (flow rb h b) as [[h2|]|]; try discriminate.
    + destruct (leq h1 h2); inversion E; subst. eauto.
    + inversion E; subst. eauto.
  - destruct (flow rb h b) as [pa|] eqn:E1;
      [|destruct (flow rb h a) as [[?|]|]; cbn in E; discriminate].
    specialize (IHb _ _ _ E1). destruct r; [exact IHb|].
    destruct IHb as (h1 & -> & G).
    destruct (flow rb h a) as [[h2|]|]; cbn in E; try discriminate.
    + destruct (leq h2 h1) eqn:Q; inversion E; subst. apply leq_true in Q; subst. eauto.
    + inversion E; subst. eauto.
  - exists h. split; auto.
    destruct (flow rb h a) as [[h'|]|]; try discriminate.
    + destruct (leq h h'); inversion E; auto.
    + inversion E; auto.
  - destruct (flow rb h a) as [pa|] eqn:E1; [|discriminate].
    destruct (IHa _ _ _ E1) as (h1 & -> & G).
    destruct (leq h h1) eqn:Q1; [|discriminate]. apply leq_true in Q1. subst h1.
    specialize (IHb rb h (Some h)). cbn [flow] in IHb. rewrite E1, leq_refl in IHb.
    specialize (IHb eq_refl). inversion E; subst res.
    destruct r.
    + intros kk K. rewrite <- app_assoc. auto.
    + destruct IHb as (h2 & Q & G2). exists h2. split; [exact Q|].
      intros kk K. rewrite <- app_assoc. auto.
  - destruct (flow rb h a) as [pa|] eqn:E1; [|discriminate]. exact (IHa _ _ _ E1).
  - destruct (above m h) eqn:A; [|discriminate]. destruct (leq h rb) eqn:Q; [|discriminate].
    apply leq_true in Q; subst rb. cbn in E.
    destruct (flow (m :: h) (m :: h) a) as [pa|] eqn:E1; [|discriminate].
    specialize (IHa _ _ _ E1). destruct r.
    + intros k K. cbn. split; [exact (above_spec _ _ A)|]. rewrite <- app_assoc.
      apply IHa. cbn. exists h. split; [reflexivity|]. split; [now apply above_notin|exact K].
    + destruct IHa as (h1 & -> & G). destruct (leq h1 (m :: h)) eqn:Q; [|discriminate].
      apply leq_true in Q; subst h1. inversion E; subst. exists h. split; [reflexivity|].
      intros k K. cbn. split; [exact (above_spec _ _ A)|]. rewrite <- app_assoc.
      apply G. cbn. exists h. split; [reflexivity|]. split; [now apply above_notin|exact K].
  - destruct (leq h rb) eqn:Q; [|discriminate]. apply leq_true in Q; subst. auto.
Qed.

Definition calm (c : cmd) : Prop := flow [] [] c = Some None \/ flow [] [] c = Some (Some []).

Lemma calls_ord cs l : calls cs l -> (forall c, In c cs -> calm c) -> ord [] l.
Proof.
  induction 1 as [|c cs l r k Hc Hk IH]; intros F; [reflexivity|].
  assert (K : ord [] k) by (apply IH; intros; apply F; now right).
  cbn. split; [reflexivity|].
  destruct (F c (or_introl eq_refl)) as [E|E];
    assert (S := flow_sound _ _ _ Hc _ _ _ E); destruct r.
  - apply S. cbn. auto.
  - destruct S as (h' & Q & _). discriminate.
  - apply S. cbn. auto.
  - destruct S as (h' & Q & G). inversion Q; subst. apply G. cbn. auto.
Qed.

Definition oinv (H : nat -> list obj) (s : st) : Prop :=
  forall t, ord (H t) (todo s t) /\ forall m, In m (H t) <-> own s m = Some t.

Definition oeff (a : act) (h : list obj) : list obj :=
  match a with
  | ALock m => m :: h
  | AUnlock m => tl h
  | ARead _ | AWrite _ => h
  | ABegin | AEnd => []
  end.

Lemma ostep H s t a s' : oinv H s -> step s t a s' ->
  oinv (set H t (oeff a (H t))) s' /\ (forall u, u <> t -> todo s' u = todo s u) /\
  exists k, todo s t = a :: k /\ todo s' t = k.
Proof.
  intros I S. destruct (I t) as [Gt Ot].
  destruct S as [s t m k T O | s t m k T O | s t x k T | s t x k T | s t k T | s t k T];
  rewrite T in Gt; cbn in Gt; cbn [todo own oeff];
  (split; [| split; [intros u Nu; now apply set_other | exists k; split; [exact T|apply set_same] ] ]);
  intros i; cbn [todo own]; destruct (I i) as [Gi Oi]; destruct (Nat.eq_dec i t) as [->|Ni];
  try rewrite !set_same; try rewrite !(set_other _ t _ i) by auto.
  - split; [apply Gt|]. intros m1. cbn. destruct (Nat.eq_dec m1 m) as [->|N].
    + rewrite set_same. split; auto.
    + rewrite (set_other _ m _ m1) by auto. rewrite <- Ot. split; [intros [Q|Q]; [congruence|auto]|auto].
  - split; [exact Gi|]. intros m1. destruct (Nat.eq_dec m1 m) as [->|N].
    + rewrite set_same, Oi, O. split; [discriminate|]. intros Q; inversion Q; congruence.
    + now rewrite (set_other _ m _ m1) by auto.
  - destruct Gt as (h' & Eh & Nm & G). rewrite Eh. cbn. split; [exact G|]. intros m1.
    destruct (Nat.eq_dec m1 m) as [->|N].
    + rewrite set_same. split; [tauto|discriminate].
    + rewrite (set_other _ m _ m1) by auto. rewrite <- Ot, Eh. cbn. split; auto.
      intros [Q|Q]; [congruence|auto].
  - split; [exact Gi|]. intros m1. destruct (Nat.eq_dec m1 m) as [->|N].
    + rewrite set_same, Oi, O. split; [|discriminate]. intros Q; inversion Q; congruence.
    + now rewrite (set_other _ m _ m1) by auto.
  - split; [exact Gt|exact Oi].
  - split; [exact Gi|exact Oi].
  - split; [exact Gt|exact Oi].
  - split; [exact Gi|exact Oi].
  - destruct Gt as [Q G]. split; [exact G|]. rewrite <- Q. exact Oi.
  - split; [exact Gi|exact Oi].
  - destruct Gt as [Q G]. split; [exact G|]. rewrite <- Q. exact Oi.
  - split; [exact Gi|exact Oi].
Qed.

Lemma ostart cs s : (forall t c, In c (cs t) -> calm c) -> starts cs s -> oinv (fun _ => []) s.
Proof.
  intros F [S O] t. split.
  - eapply calls_ord; eauto.
  - intros m. rewrite O. cbn. split; [tauto|discriminate].
Qed.

Lemma orun s h s' : run s h s' -> forall H, oinv H s -> exists H', oinv H' s'.
Proof.
  induction 1 as [s|s h s1 t a s2 R IH S]; intros H I; [eauto|].
  destruct (IH _ I) as (H1 & I1). destruct (ostep _ _ _ _ _ I1 S) as (J & _). eauto.
Qed.

Lemma run_trans s h s1 : run s h s1 -> forall h' s2, run s1 h' s2 -> run s (h ++ h') s2.
Proof.
  intros R h' s2 R'. revert R. induction R' as [s1|s1 h' s' t a s2 R' IH S]; intros R.
  - now rewrite app_nil_r.
  - rewrite app_assoc. econstructor; eauto.
Qed.

Lemma run_single s t a s' : step s t a s' -> run s [(t, a)] s'.
Proof. intros S. change [(t, a)] with ([] ++ [(t, a)]). econstructor; [constructor|exact S]. Qed.

Lemma rank_le m : rank m <= 1.
Proof. unfold rank. destruct (m =? 0); lia. Qed.

(** A thread that owns only mutexes below [r] did not do anything. *)
Definition quiet (r : nat) (s : st) (h : list (nat * act)) (s' : st) : Prop :=
  forall u, (forall m, own s m = Some u -> rank m < r) ->
    ~ In u (map fst h) /\ todo s' u = todo s u /\ (forall m, own s' m = Some u <-> own s m = Some u).

Lemma quiet_step r H s t a s' m : oinv H s -> step s t a s' -> own s m = Some t -> r <= rank m ->
  quiet r s [(t, a)] s'.
Proof.
  intros I S O R u U.
  assert (N : u <> t) by (intros ->; apply U in O; lia).
  destruct (ostep _ _ _ _ _ I S) as (J & T & _). split; [|split].
  - cbn. intros [Q|[] ]. congruence.
  - auto.
  - intros m1. rewrite <- (proj2 (J u)), <- (proj2 (I u)). now rewrite set_other.
Qed.

Lemma quiet_trans r s h s1 h' s2 : quiet r s h s1 -> quiet r s1 h' s2 ->
  quiet r s (h ++ h') s2.
Proof.
  intros Q1 Q2 u U. destruct (Q1 u U) as (A & B & C).
  destruct (Q2 u) as (A2 & B2 & C2).
  { intros m Hm. apply U. now apply C. }
  rewrite map_app. split; [|split].
  - intros Hin. apply in_app_or in Hin. tauto.
  - congruence.
  - intros m. rewrite C2. apply C.
Qed.

Lemma quiet_mono r r' s h s' : r <= r' -> quiet r' s h s' -> quiet r s h s'.
Proof. intros L Q u U. apply Q. intros m Hm. apply U in Hm. lia. Qed.

Lemma quiet_nil r s : quiet r s [] s.
Proof. intros u _. cbn. repeat split; auto. Qed.

(** The owner of a mutex can be brought to release it. *)
Lemma release n : forall m s H t len, oinv H s -> own s m = Some t -> 1 - rank m <= n ->
  List.length (todo s t) <= len ->
  exists h s' H', run s h s' /\ oinv H' s' /\ own s' m = None /\ quiet (rank m) s h s'.
Proof.
  induction n as [n IHn] using lt_wf_ind.
  intros m s H t len. revert s H. induction len as [|len IHl]; intros s H I O Rk L.
  - exfalso. destruct (I t) as [G Ot]. destruct (todo s t); [|cbn in L; lia].
    cbn in G. apply Ot in O. rewrite G in O. destruct O.
  - (* a step of the owner *)
    assert (Go : forall a s1, step s t a s1 ->
      exists h s' H', run s h s' /\ oinv H' s' /\ own s' m = None /\ quiet (rank m) s h s').
    { intros a s1 S. destruct (ostep _ _ _ _ _ I S) as (J & T & k & K1 & K2).
      assert (Q := quiet_step (rank m) _ _ _ _ _ m I S O (le_n _)).
      destruct (own s1 m) as [u|] eqn:O1.
      - assert (u = t) as ->.
        { destruct (Nat.eq_dec u t) as [|N]; auto. exfalso.
          apply (proj2 (J u)) in O1. rewrite set_other in O1 by auto.
          apply (proj2 (I u)) in O1. congruence. }
        destruct (IHl _ _ J O1 Rk) as (h & s' & H' & R & I' & O' & Q').
        { rewrite K1 in L. cbn in L. rewrite K2. lia. }
        exists ([(t, a)] ++ h), s', H'. split; [|split; [exact I'|split; [exact O'|] ] ].
        + eapply run_trans; [apply run_single; exact S|exact R].
        + eapply quiet_trans; eauto.
      - exists [(t, a)], s1, (set H t (oeff a (H t))). split; [apply run_single; exact S|]. auto. }
    destruct (I t) as [G Ot]. destruct (todo s t) as [|a k] eqn:T.
    { cbn in G. apply Ot in O. rewrite G in O. destruct O. }
    destruct a as [m1|m1|x|x| | ]; cbn in G.
    + (* lock *)
      destruct G as [Ab G]. destruct (own s m1) as [u|] eqn:O1.
      * assert (R1 : rank m < rank m1) by (apply Ab, Ot, O).
        assert (L1 := rank_le m1).
        destruct (IHn (1 - rank m1) ltac:(lia) m1 s H u (List.length (todo s u)) I O1
                  ltac:(lia) ltac:(lia))
          as (h & s1 & H1 & R & I1 & O' & Q).
        destruct (Q t) as (Nt & Tt & Ht).
        { intros m2 Hm2. apply Ab, Ot, Hm2. }
        assert (Om : own s1 m = Some t) by now apply Ht.
        (* now the owner can lock *)
        assert (T1 : todo s1 t = ALock m1 :: k) by congruence.
        pose (s2 := {| todo := set (todo s1) t k; own := set (own s1) m1 (Some t) |}).
        assert (S : step s1 t (ALock m1) s2) by (constructor; auto).
        assert (Q2 := quiet_step (rank m) _ _ _ _ _ m I1 S Om (le_n _)).
        destruct (ostep _ _ _ _ _ I1 S) as (J & _).
        assert (Nm : m <> m1) by (intros ->; lia).
        destruct (IHl s2 _ J) as (h' & s' & H' & R' & I' & O'' & Q').
        { cbn. now rewrite set_other by auto. }
        { exact Rk. }
        { cbn. rewrite set_same. cbn in L. lia. }
        exists ((h ++ [(t, ALock m1)]) ++ h'), s', H'.
        split; [|split; [exact I'|split; [exact O''|] ] ].
        -- eapply run_trans; [|exact R']. eapply run_trans; [exact R|now apply run_single].
        -- eapply quiet_trans; [|exact Q']. eapply quiet_trans; [|exact Q2].
           eapply quiet_mono; [|exact Q]. lia.
      * eapply Go, s_lock; [exact T|exact O1].
    + destruct G as (h' & Eh & _). eapply Go, s_unlock; [exact T|]. apply Ot. rewrite Eh. now left.
    + eapply Go, s_read; exact T.
    + eapply Go, s_write; exact T.
    + eapply Go, s_begin; exact T.
    + eapply Go, s_end; exact T.
Qed.

Lemma oinv_can_go_on H s t : oinv H s -> todo s t <> [] -> can_go_on s t.
Proof.
  intros I N. destruct (I t) as [G Ot]. destruct (todo s t) as [|a k] eqn:T; [congruence|].
  assert (Go : forall a s1, step s t a s1 -> can_go_on s t).
  { intros a1 s1 S. exists [], s, a1, s1. split; [constructor|]. split; [cbn; tauto|exact S]. }
  destruct a as [m1|m1|x|x| | ]; cbn in G.
  - destruct G as [Ab G]. destruct (own s m1) as [u|] eqn:O1.
    + destruct (release 1 m1 s H u (List.length (todo s u)) I O1 ltac:(lia) ltac:(lia))
        as (h & s1 & H1 & R & I1 & O' & Q).
      destruct (Q t) as (Nt & Tt & Ht).
      { intros m2 Hm2. apply Ab, Ot, Hm2. }
      eexists h, s1, _, _. split; [exact R|]. split; [exact Nt|].
      eapply s_lock; [rewrite Tt; exact T|exact O'].
    + eapply Go, s_lock; [exact T|exact O1].
  - destruct G as (h' & Eh & _). eapply Go, s_unlock; [exact T|]. apply Ot. rewrite Eh. now left.
  - eapply Go, s_read; exact T.
  - eapply Go, s_write; exact T.
  - eapply Go, s_begin; exact T.
  - eapply Go, s_end; exact T.
Qed.

Lemma oinv_no_misuse H s : oinv H s -> ~ misuse s.
Proof.
  intros I (t & m & k & [[T O]|[T O] ]); destruct (I t) as [G Ot]; rewrite T in G; cbn in G.
  - destruct G as [Ab _]. apply Ot in O. apply Ab in O. lia.
  - destruct G as (h' & Eh & _). apply O, Ot. rewrite Eh. now left.
Qed.

(** ** All calls of the library are in order *)

Lemma flow_seq l rb h : (forall c, In c l -> flow rb h c = Some None \/ flow rb h c = Some (Some h)) ->
  flow rb h (seq l) = Some None \/ flow rb h (seq l) = Some (Some h).
Proof.
  induction l as [|c l IH]; intros F; [now right|]. cbn [seq fold_right flow].
  destruct (F c (or_introl eq_refl)) as [-> | ->]; [now left|].
  apply IH. intros; apply F; now right.
Qed.
