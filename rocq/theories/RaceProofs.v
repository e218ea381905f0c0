(** * A static check of the use of a mutex and its soundness *)
From Coq Require Import List String Bool Arith Lia.
From Verif Require Import RaceModel RaceSpec.
Import ListNotations.
Local Open Scope nat_scope.

Lemma set_same {A} (f : nat -> A) k x : set f k x k = x.
Proof. unfold set. now rewrite Nat.eqb_refl. Qed.
Lemma set_other {A} (f : nat -> A) k x i : i <> k -> set f k x i = f i.
Proof. intros H. unfold set. destruct (Nat.eqb_spec i k); congruence. Qed.

Section Mutex.
Variable once : bool.
Variable o : obj.
Variable xs : list string.

Definition prot (x : loc) : bool :=
  (fst x =? o) && existsb (String.eqb (snd x)) xs.

(** [b]: the thread owns the mutex; [d]: it has locked it in this call. *)
Fixpoint good (b d : bool) (l : list act) : Prop :=
  match l with
  | [] => b = false
  | ALock m :: l =>
      if m =? o then b = false /\ d = false /\ good true once l else good b d l
  | AUnlock m :: l => if m =? o then b = true /\ good false d l else good b d l
  | ARead x :: l | AWrite x :: l => (prot x = true -> b = true) /\ good b d l
  | ABegin :: l => b = false /\ good false d l
  | AEnd :: l => b = false /\ good false false l
  end.

Lemma good_mono l : forall b d, good b true l -> good b d l.
Proof.
  induction l as [|a l IH]; intros b d H; [exact H|].
  destruct a; cbn in *; try (destruct H; split; auto; fail); auto.
  - destruct (m =? o); auto. destruct H as (H1 & H2 & _). discriminate.
  - destruct (m =? o); auto. destruct H; auto.
Qed.

Lemma good_orb1 l b d d' : good b (d || d') l -> good b d l.
Proof. destruct d, d'; cbn; auto using good_mono. Qed.
Lemma good_orb2 l b d d' : good b (d || d') l -> good b d' l.
Proof. destruct d, d'; cbn; auto using good_mono. Qed.

Definition acc_ok (x : loc) (b d : bool) : option (option (bool * bool)) :=
  if prot x && negb b then None else Some (Some (b, d)).

Definition join (p q : option (option (bool * bool))) : option (option (bool * bool)) :=
  match p, q with
  | Some None, r | r, Some None => r
  | Some (Some (b, d)), Some (Some (b', d')) =>
      if Bool.eqb b b' then Some (Some (b, d || d')) else None
  | _, _ => None
  end.

Fixpoint lk (rb : bool) (b d : bool) (c : cmd) : option (option (bool * bool)) :=
  match c with
  | Skip => Some (Some (b, d))
  | Rd x | Wr x => acc_ok x b d
  | Lk m => if m =? o then if b || d then None else Some (Some (true, once))
            else Some (Some (b, d))
  | Un m => if m =? o then if b then Some (Some (false, d)) else None
            else Some (Some (b, d))
  | Sq c1 c2 => match lk rb b d c1 with
                | Some (Some (b', d')) => lk rb b' d' c2
                | r => r
                end
  | Alt c1 c2 => join (lk rb b d c1) (lk rb b d c2)
  | Rep c1 => match lk rb b d c1 with
              | Some (Some (b', d')) =>
                  if Bool.eqb b b' && Bool.eqb d d' then Some (Some (b, d)) else None
              | Some None => Some (Some (b, d))
              | None => None
              end
  | Guard m c1 => if m =? o
                  then if b || d || rb then None
                       else match lk true true once c1 with
                            | Some (Some (b', d')) =>
                                if b' then Some (Some (false, d')) else None
                            | r => r
                            end
                  else lk rb b d c1
  | Throw => if Bool.eqb b rb then Some None else None
  end.

Lemma acc_ok_some x b d r : acc_ok x b d = Some r ->
  r = Some (b, d) /\ (prot x = true -> b = true).
Proof.
  unfold acc_ok. destruct (prot x), b; cbn; intros H; inversion H; subst; split; auto;
  discriminate.
Qed.

(** After an exception the mutex is as at the raise level and has possibly
    been locked in this call. *)
Lemma lk_sound c l r : exec c l r -> forall rb b d res,
  lk rb b d c = Some res ->
  if r then forall k, good rb true k -> good b d (l ++ k)
  else exists b' d', res = Some (b', d') /\ forall k, good b' d' k -> good b d (l ++ k).
Proof.
  induction 1 as [ | x | x | m | m | a b l k r Ha IHa Hb IHb | a b l Ha IHa
                 | a b l r Ha IHa | a b l r Hb IHb | a | a l k r Ha IHa Hb IHb | a l Ha IHa
                 | m a l r Ha IHa | ];
  intros rb b0 d res E; cbn [lk] in E.
  - inversion E; subst. exists b0, d. split; auto.
  - destruct (acc_ok_some _ _ _ _ E) as [-> E2]. exists b0, d. split; auto. intros k G. cbn. auto.
  - destruct (acc_ok_some _ _ _ _ E) as [-> E2]. exists b0, d. split; auto. intros k G. cbn. auto.
  - revert E. cbn. destruct (m =? o); intros E.
    + destruct b0, d; cbn in E; inversion E; subst. exists true, once. split; auto.
    + inversion E; subst. exists b0, d. split; auto.
  - revert E. cbn. destruct (m =? o); intros E.
    + destruct b0; inversion E; subst. exists false, d. split; auto.
    + inversion E; subst. exists b0, d. split; auto.
  - destruct (lk rb b0 d a) as [[[b' d']|]|] eqn:E1; try discriminate.
    + destruct (IHa _ _ _ _ E1) as (b1 & d1 & Q & G). inversion Q; subst b1 d1.
      specialize (IHb _ _ _ _ E). destruct r.
      * intros kk K. rewrite <- app_assoc. auto.
      * destruct IHb as (b2 & d2 & Q2 & G2). exists b2, d2. split; [exact Q2|].
        intros kk K. rewrite <- app_assoc. auto.
    + destruct (IHa _ _ _ _ E1) as (b1 & d1 & Q & G). discriminate Q.
  - destruct (lk rb b0 d a) as [[[b' d']|]|] eqn:E1; try discriminate;
    exact (IHa _ _ _ _ E1).
  - destruct (lk rb b0 d a) as [pa|] eqn:E1;
      [|destruct (lk rb b0 d b) as [[[? ?]|]|]; cbn in E; discriminate].
    specialize (IHa _ _ _ _ E1). destruct r; [exact IHa|].
    destruct IHa as (b1 & d1 & -> & G). cbn in E.
    destruct (lk rb b0 d b) as [[[b2 d2]|]|]; try discriminate.
    + destruct (Bool.eqb b1 b2); inversion E; subst. exists b1, (d1 || d2).
      split; auto. intros k K. apply G. eapply good_orb1; exact K.
    + inversion E; subst. exists b1, d1. auto.
  - destruct (lk rb b0 d b) as [pa|] eqn:E1;
      [|destruct (lk rb b0 d a) as [[[? ?]|]|]; cbn in E; discriminate].
    specialize (IHb _ _ _ _ E1). destruct r; [exact IHb|].
    destruct IHb as (b1 & d1 & -> & G).
    destruct (lk rb b0 d a) as [[[b2 d2]|]|]; cbn in E; try discriminate.
    + destruct (Bool.eqb b2 b1) eqn:Q; inversion E; subst. apply eqb_prop in Q; subst b2.
      exists b1, (d2 || d1).
      split; auto. intros k K. apply G. eapply good_orb2; exact K.
    + inversion E; subst. exists b1, d1. auto.
  - exists b0, d. split; auto.
    destruct (lk rb b0 d a) as [[[b' d']|]|]; try discriminate.
    + destruct (Bool.eqb b0 b' && Bool.eqb d d'); inversion E; auto.
    + inversion E; auto.
  - assert (E' := E). destruct (lk rb b0 d a) as [pa|] eqn:E1; [|discriminate].
    destruct (IHa _ _ _ _ E1) as (b1 & d1 & -> & G).
    destruct (Bool.eqb b0 b1) eqn:Q1; [|discriminate].
    destruct (Bool.eqb d d1) eqn:Q2; [|discriminate].
    apply eqb_prop in Q1, Q2. subst b1 d1.
    specialize (IHb rb b0 d (Some (b0, d))).
    cbn [lk] in IHb. rewrite E1 in IHb. rewrite !Bool.eqb_reflx in IHb.
    specialize (IHb eq_refl). cbn in E. inversion E; subst res.
    destruct r.
    + intros kk K. rewrite <- app_assoc. auto.
    + destruct IHb as (b2 & d2 & Q & G2). exists b2, d2. split; [exact Q|].
      intros kk K. rewrite <- app_assoc. auto.
  - destruct (lk rb b0 d a) as [pa|] eqn:E1; [|discriminate]. exact (IHa _ _ _ _ E1).
  - destruct (Nat.eqb_spec m o) as [->|N].
    + destruct b0; [discriminate|]. destruct d; [discriminate|]. destruct rb; [discriminate|].
      cbn in E.
      destruct (lk true true once a) as [pa|] eqn:E1; [|discriminate].
      specialize (IHa _ _ _ _ E1). destruct r.
      * intros k K. cbn. rewrite Nat.eqb_refl. repeat split. rewrite <- app_assoc.
        apply IHa. cbn. rewrite Nat.eqb_refl. split; [reflexivity|exact K].
      * destruct IHa as (b1 & d1 & -> & G). destruct b1; [|discriminate].
        inversion E; subst. exists false, d1. split; [reflexivity|].
        intros k K. cbn. rewrite Nat.eqb_refl. repeat split. rewrite <- app_assoc.
        apply G. cbn. rewrite Nat.eqb_refl. split; [reflexivity|exact K].
    + assert (N' : (m =? o) = false) by now apply Nat.eqb_neq.
      specialize (IHa _ _ _ _ E). destruct r.
      * intros k K. cbn. rewrite N'. rewrite <- app_assoc. apply IHa. cbn. rewrite N'. exact K.
      * destruct IHa as (b1 & d1 & Q & G). exists b1, d1. split; [exact Q|].
        intros k K. cbn. rewrite N'. rewrite <- app_assoc. apply G. cbn. rewrite N'. exact K.
  - destruct (Bool.eqb b0 rb) eqn:Q; [|discriminate]. apply eqb_prop in Q; subst.
    intros k K. cbn. apply good_mono. exact K.
Qed.

Definition meth_ok (c : cmd) : bool :=
  match lk false false false c with
  | Some None => true
  | Some (Some (false, _)) => true
  | _ => false
  end.

Lemma foreign_lk c : foreign o c -> forall b d,
  lk b b d c = Some None \/ lk b b d c = Some (Some (b, d)).
Proof.
  induction c as [ | x | x | m | m | a IHa b IHb | a IHa b IHb | a IHa | m a IHa | ];
  cbn [foreign lk]; intros F b0 d.
  - now right.
  - right. unfold acc_ok, prot. destruct (Nat.eqb_spec (fst x) o); [congruence|]. reflexivity.
  - right. unfold acc_ok, prot. destruct (Nat.eqb_spec (fst x) o); [congruence|]. reflexivity.
  - destruct (Nat.eqb_spec m o); [congruence|]. now right.
  - destruct (Nat.eqb_spec m o); [congruence|]. now right.
  - destruct F as [Fa Fb]. destruct (IHa Fa b0 d) as [-> | ->]; auto.
  - destruct F as [Fa Fb].
    destruct (IHa Fa b0 d) as [-> | ->], (IHb Fb b0 d) as [-> | ->]; cbn; auto.
    rewrite Bool.eqb_reflx. destruct d; auto.
  - destruct (IHa F b0 d) as [-> | ->]; [now right|].
    rewrite !Bool.eqb_reflx. now right.
  - destruct F as [N Fa]. destruct (Nat.eqb_spec m o); [congruence|]. auto.
  - rewrite Bool.eqb_reflx. now left.
Qed.

Lemma calls_good cs l : calls cs l ->
  (forall c, In c cs -> meth_ok c = true \/ foreign o c) -> good false false l.
Proof.
  induction 1 as [|c cs l r k Hc Hk IH]; intros F; [reflexivity|].
  assert (K : good false false k) by (apply IH; intros; apply F; now right).
  clear IH. cbn. split; [reflexivity|].
  assert (E : exists res, lk false false false c = Some res /\
     (forall b' d', res = Some (b', d') -> b' = false)).
  { destruct (F c (or_introl eq_refl)) as [M|M].
    - unfold meth_ok in M. destruct (lk false false false c) as [[[b' d']|]|]; try discriminate.
      + exists (Some (b', d')). split; auto. intros ? ? Q; inversion Q; subst.
        destruct b'0; auto; discriminate.
      + exists None. split; auto. discriminate.
    - destruct (foreign_lk c M false false) as [-> | ->].
      + exists None. split; auto. discriminate.
      + eexists. split; auto. intros ? ? Q; inversion Q; auto. }
  destruct E as (res & E & B). assert (S := lk_sound _ _ _ Hc _ _ _ _ E). destruct r.
  - apply S. cbn. auto.
  - destruct S as (b' & d' & -> & G). rewrite (B _ _ eq_refl) in G. apply G. cbn. auto.
Qed.

(** ** The invariant of the threads *)

Definition inv (b d : nat -> bool) (s : st) : Prop :=
  forall t, good (b t) (d t) (todo s t) /\ (b t = true <-> own s o = Some t) /\
            (once = true -> b t = true -> d t = true).

Lemma start_inv cs s :
  (forall t c, In c (cs t) -> meth_ok c = true \/ foreign o c) ->
  starts cs s -> inv (fun _ => false) (fun _ => false) s.
Proof.
  intros F [S O] t. split; [|split].
  - eapply calls_good; eauto.
  - rewrite O. split; discriminate.
  - discriminate.
Qed.

(** What a step does to the flags of its thread. *)
Definition eff (a : act) (b d : bool) : bool * bool :=
  match a with
  | ALock m => if m =? o then (true, once) else (b, d)
  | AUnlock m => if m =? o then (false, d) else (b, d)
  | ARead _ | AWrite _ => (b, d)
  | ABegin => (false, d)
  | AEnd => (false, false)
  end.

Lemma step_inv b d s t a s' : inv b d s -> step s t a s' ->
  inv (set b t (fst (eff a (b t) (d t)))) (set d t (snd (eff a (b t) (d t)))) s'.
Proof.
  intros I S i.
  assert (Gt := proj1 (I t)). assert (Ot := proj1 (proj2 (I t))). assert (Lt := proj2 (proj2 (I t))).
  assert (Ii := I i).
  destruct S as [s t m k T O | s t m k T O | s t x k T | s t x k T | s t k T | s t k T];
  rewrite T in Gt; cbn in Gt; cbn [todo own eff].
  - destruct (Nat.eqb_spec m o) as [->|N].
    + destruct Gt as (B & D & G). destruct (Nat.eq_dec i t) as [->|Ni].
      * rewrite !set_same. cbn. repeat split; auto.
      * rewrite !(set_other _ t _ i) by auto. rewrite set_same.
        destruct Ii as (Gi & Oi & Li). repeat split; auto.
        -- intros Bi. apply Oi in Bi. congruence.
        -- intros Q; inversion Q; subst; congruence.
    + cbn. rewrite (set_other _ m _ o) by auto.
      destruct (Nat.eq_dec i t) as [->|Ni].
      * rewrite !set_same. destruct Ii as (Gi & Oi & Li). repeat split; auto; apply Oi.
      * rewrite !(set_other _ t _ i) by auto. exact Ii.
  - destruct (Nat.eqb_spec m o) as [->|N].
    + destruct Gt as (B & G). destruct (Nat.eq_dec i t) as [->|Ni].
      * rewrite !set_same. cbn. repeat split; auto; discriminate.
      * rewrite !(set_other _ t _ i) by auto. rewrite set_same.
        destruct Ii as (Gi & Oi & Li). repeat split; auto; try discriminate.
        intros Bi. apply Oi in Bi. rewrite O in Bi. inversion Bi. congruence.
    + cbn. rewrite (set_other _ m _ o) by auto.
      destruct (Nat.eq_dec i t) as [->|Ni].
      * rewrite !set_same. destruct Ii as (Gi & Oi & Li). repeat split; auto; apply Oi.
      * rewrite !(set_other _ t _ i) by auto. exact Ii.
  - cbn. destruct (Nat.eq_dec i t) as [->|Ni].
    + rewrite !set_same. destruct Ii as (Gi & Oi & Li). repeat split; auto; try apply Oi.
      apply Gt.
    + rewrite !(set_other _ t _ i) by auto. exact Ii.
  - cbn. destruct (Nat.eq_dec i t) as [->|Ni].
    + rewrite !set_same. destruct Ii as (Gi & Oi & Li). repeat split; auto; try apply Oi.
      apply Gt.
    + rewrite !(set_other _ t _ i) by auto. exact Ii.
  - cbn. destruct Gt as [B G]. destruct (Nat.eq_dec i t) as [->|Ni].
    + rewrite !set_same. destruct Ii as (Gi & Oi & Li). repeat split; auto; try discriminate.
      intros Q. apply Oi in Q. congruence.
    + rewrite !(set_other _ t _ i) by auto. exact Ii.
  - cbn. destruct Gt as [B G]. destruct (Nat.eq_dec i t) as [->|Ni].
    + rewrite !set_same. destruct Ii as (Gi & Oi & Li). repeat split; auto; try discriminate.
      intros Q. apply Oi in Q. congruence.
    + rewrite !(set_other _ t _ i) by auto. exact Ii.
Qed.

Lemma run_inv s h s' : run s h s' -> forall b d, inv b d s -> exists b' d', inv b' d' s'.
Proof.
  induction 1 as [s|s h s1 t a s2 R IH S]; intros b d I; [eauto|].
  destruct (IH _ _ I) as (b1 & d1 & I1). eapply step_inv in S; eauto.
Qed.

Lemma prot_in x : In x xs -> prot (o, x) = true.
Proof.
  intros H. unfold prot. cbn. rewrite Nat.eqb_refl. cbn. apply existsb_exists.
  exists x. split; [exact H|apply String.eqb_refl].
Qed.

Lemma inv_no_race b d s x : inv b d s -> prot x = true -> ~ race_on x s.
Proof.
  intros I P (t & t' & w & N & [k K] & [k' K']).
  destruct (I t) as (G & O & _), (I t') as (G' & O' & _). rewrite K in G. rewrite K' in G'.
  assert (B : b t = true) by (cbn in G; apply G, P).
  assert (B' : b t' = true) by (destruct w; cbn in G'; apply G', P).
  apply O in B. apply O' in B'. congruence.
Qed.

(** ** Nobody else writes during a call *)

Lemma run_app s h1 : forall h2 s', run s (h1 ++ h2) s' ->
  exists sm, run s h1 sm /\ run sm h2 s'.
Proof.
  intros h2. induction h2 as [|[t a] h2 IH] using rev_ind; intros s' R.
  - rewrite app_nil_r in R. exists s'. split; [exact R|constructor].
  - rewrite app_assoc in R. inversion R as [Q1 Q2 Q3|s0 h s1 t0 a0 s2 R1 S1 Q1 Q2 Q3].
    + destruct ((h1 ++ h2)); discriminate.
    + apply app_inj_tail in Q2. destruct Q2 as [-> Q2]. inversion Q2; subst.
      destruct (IH _ R1) as (sm & A & B). exists sm. split; [exact A|].
      econstructor; eauto.
Qed.

Lemma run_one s t a s' : run s [(t, a)] s' -> step s t a s'.
Proof.
  intros R. inversion R as [|s0 h s1 t0 a0 s2 R1 S1 Q1 Q2 Q3]; subst.
  destruct h as [|p h]; cbn in Q2; [|destruct h; discriminate].
  inversion Q2; subst. inversion R1 as [|s0 h s1' t0 a0 s2 R2 S2 Q4 Q5 Q6]; subst; auto.
  destruct h; discriminate.
Qed.

Lemma held s h s' : once = true -> run s h s' -> forall b d t, inv b d s -> b t = true -> d t = true ->
  ~ In (t, AEnd) h ->
  exists b' d', inv b' d' s' /\ d' t = true /\
   (b' t = true -> forall t' z, t' <> t -> prot z = true -> ~ In (t', AWrite z) h).
Proof.
  intros On. induction 1 as [s|s h s1 u a s2 R IH S]; intros b d t I B D NE.
  - exists b, d. split; [exact I|]. split; [exact D|]. intros _ t' z _ _ [].
  - destruct (IH b d t I B D) as (b1 & d1 & I1 & D1 & P1).
    { intros Q. apply NE. apply in_or_app. now left. }
    exists (set b1 u (fst (eff a (b1 u) (d1 u)))), (set d1 u (snd (eff a (b1 u) (d1 u)))).
    split; [eapply step_inv; eauto|].
    destruct (Nat.eq_dec u t) as [->|N].
    + rewrite !set_same.
      assert (A1 : a <> AEnd).
      { intros ->. apply NE. apply in_or_app. right. now left. }
      assert (G := proj1 (I1 t)).
      assert (A2 : exists k, todo s1 t = a :: k) by (inversion S; eauto).
      destruct A2 as [k K]. rewrite K in G.
      assert (AB : snd (eff a (b1 t) (d1 t)) = true /\
                   (fst (eff a (b1 t) (d1 t)) = true -> b1 t = true)).
      { destruct a; cbn in G; cbn [eff].
        - destruct (m =? o); [|auto]. exfalso. destruct G as (_ & Q & _). congruence.
        - destruct (m =? o); cbn; auto. split; [auto|discriminate].
        - auto.
        - auto.
        - cbn. split; [auto|discriminate].
        - congruence. }
      destruct AB as [AB1 AB2]. split; [exact AB1|]. intros Q t' z Nt Pz Hin.
      apply in_app_or in Hin. destruct Hin as [Hin|[Hin|[] ] ].
      * exact (P1 (AB2 Q) _ _ Nt Pz Hin).
      * inversion Hin; congruence.
    + rewrite !(set_other _ u _ t) by auto. split; [exact D1|].
      intros Q t' z Nt Pz Hin. apply in_app_or in Hin. destruct Hin as [Hin|[Hin|[] ] ].
      * exact (P1 Q _ _ Nt Pz Hin).
      * inversion Hin; subst t' a.
        assert (A2 : exists k, todo s1 u = AWrite z :: k) by (inversion S; eauto).
        destruct A2 as [k K]. destruct (I1 u) as (G & O & _). rewrite K in G. cbn in G.
        assert (Bu : b1 u = true) by (apply G, Pz).
        apply O in Bu. apply (proj1 (proj2 (I1 t))) in Q. congruence.
Qed.

Lemma acc_held b d s t a s' x : inv b d s -> step s t a s' -> is_acc a x -> prot x = true ->
  b t = true.
Proof.
  intros I S A P. assert (A2 : exists k, todo s t = a :: k) by (inversion S; eauto).
  destruct A2 as [k K]. assert (G := proj1 (I t)). rewrite K in G.
  destruct A as [-> | ->]; cbn in G; now apply G.
Qed.

Lemma inv_not_torn b d s h s' x y : once = true -> inv b d s -> run s h s' ->
  prot x = true -> prot y = true -> ~ torn h x y.
Proof.
  intros On I R Px Py (t & t' & z & a & c & h1 & h2 & h3 & -> & Ax & Ay & NE & Nt & Hz & Hin).
  destruct (run_app _ _ _ _ R) as (s1 & R1 & R2).
  change ((t, a) :: h2 ++ (t, c) :: h3) with ([(t, a)] ++ h2 ++ (t, c) :: h3) in R2.
  destruct (run_app _ _ _ _ R2) as (s2 & R3 & R4). apply run_one in R3.
  destruct (run_app _ _ _ _ R4) as (s3 & R5 & R6).
  change ((t, c) :: h3) with ([(t, c)] ++ h3) in R6.
  destruct (run_app _ _ _ _ R6) as (s4 & R7 & _). apply run_one in R7.
  destruct (run_inv _ _ _ R1 _ _ I) as (b1 & d1 & I1).
  assert (B1 := acc_held _ _ _ _ _ _ _ I1 R3 Ax Px).
  assert (D1 := proj2 (proj2 (I1 t)) On B1).
  assert (I2 := step_inv _ _ _ _ _ _ I1 R3).
  assert (Ef : eff a (b1 t) (d1 t) = (b1 t, d1 t)) by (destruct Ax as [-> | ->]; reflexivity).
  rewrite Ef in I2. cbn [fst snd] in I2.
  destruct (held _ _ _ On R5 _ _ t I2) as (b3 & d3 & I3 & _ & P3); auto;
    try (rewrite set_same; assumption).
  assert (B3 := acc_held _ _ _ _ _ _ _ I3 R7 Ay Py).
  apply (P3 B3 _ _ Nt) in Hin; auto. destruct Hz as [-> | ->]; assumption.
Qed.
End Mutex.

(** ** The two theorems *)

Theorem race_free_ok o ms xs :
  forallb (meth_ok false o xs) ms = true -> race_free o ms xs.
Proof.
  intros F cs s x U (s0 & h & S & R) Hx.
  rewrite forallb_forall in F.
  assert (I := start_inv false o xs cs s0).
  destruct (run_inv false o xs _ _ _ R (fun _ => false) (fun _ => false)) as (b & d & J).
  - apply I; [|exact S]. intros t c Hc. destruct (U t c Hc); auto.
  - eapply inv_no_race; [exact J|]. now apply prot_in.
Qed.

Theorem call_atomic_ok o ms xs :
  forallb (meth_ok true o xs) ms = true -> call_atomic o ms xs.
Proof.
  intros F cs s0 h s x y U S R Hx Hy. rewrite forallb_forall in F.
  eapply (inv_not_torn true o xs); [reflexivity| |exact R| |]; try now apply prot_in.
  eapply start_inv; [|exact S]. intros t c Hc. destruct (U t c Hc); auto.
Qed.
