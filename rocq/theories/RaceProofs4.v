(** * Concrete schedules *)
From Coq Require Import List String Bool Arith Lia.
From Verif Require Import RaceModel RaceSpec RaceProofs RaceProofs2.
Import ListNotations.
Local Open Scope string_scope.
Local Open Scope list_scope.
Local Open Scope nat_scope.

(** ** Use by one thread, members never written *)

Definition touches (x : loc) (a : act) : bool :=
  match a with
  | ARead y | AWrite y => (fst x =? fst y) && String.eqb (snd x) (snd y)
  | _ => false
  end.

Lemma touches_spec x a : touches x a = true <-> is_acc a x.
Proof.
  destruct x as [o s]. unfold is_acc. split.
  - destruct a as [m|m|[p q]|[p q]| | ]; cbn; try discriminate;
    intros H; apply andb_true_iff in H; destruct H as [A B];
    apply Nat.eqb_eq in A; apply String.eqb_eq in B; subst; auto.
  - intros [-> | ->]; cbn; now rewrite Nat.eqb_refl, String.eqb_refl.
Qed.

Lemma exec_foreign c l r o x : exec c l r -> foreign o c -> forall a, In a l -> ~ is_acc a (o, x).
Proof.
  induction 1; cbn [foreign]; intros F act0 Hin.
  - destruct Hin.
  - destruct Hin as [<- | [] ]. intros [Q|Q]; inversion Q; subst; cbn in F; congruence.
  - destruct Hin as [<- | [] ]. intros [Q|Q]; inversion Q; subst; cbn in F; congruence.
  - destruct Hin as [<- | [] ]. intros [Q|Q]; discriminate.
  - destruct Hin as [<- | [] ]. intros [Q|Q]; discriminate.
  - destruct F. apply in_app_or in Hin. destruct Hin; eauto.
  - destruct F. eauto.
  - destruct F. eauto.
  - destruct F. eauto.
  - destruct Hin.
  - apply in_app_or in Hin. destruct Hin; eauto.
  - eauto.
  - destruct F. destruct Hin as [<- | Hin]; [intros [Q|Q]; discriminate|].
    apply in_app_or in Hin. destruct Hin as [Hin | [<- | [] ] ]; eauto.
    intros [Q|Q]; discriminate.
  - destruct Hin.
Qed.

Lemma exec_unwritten c l r x : exec c l r -> unwritten x c -> In (AWrite x) l -> False.
Proof.
  induction 1; cbn [unwritten]; intros F Hin.
  - destruct Hin.
  - destruct Hin as [Q | [] ]. discriminate.
  - destruct Hin as [Q | [] ]. inversion Q. congruence.
  - destruct Hin as [Q | [] ]. discriminate.
  - destruct Hin as [Q | [] ]. discriminate.
  - destruct F. apply in_app_or in Hin. destruct Hin; eauto.
  - destruct F. eauto.
  - destruct F. eauto.
  - destruct F. eauto.
  - destruct Hin.
  - apply in_app_or in Hin. destruct Hin; eauto.
  - eauto.
  - destruct Hin as [Q | Hin]; [discriminate|].
    apply in_app_or in Hin. destruct Hin as [Hin | [Q | [] ] ]; eauto. discriminate.
  - destruct Hin.
Qed.

Lemma calls_all (P : act -> Prop) cs l : P ABegin -> P AEnd -> calls cs l ->
  (forall c l r, In c cs -> exec c l r -> forall a, In a l -> P a) -> forall a, In a l -> P a.
Proof.
  intros PB PE. induction 1 as [|c cs l r k Hc Hk IH]; intros F a Hin; [destruct Hin|].
  destruct Hin as [<- | Hin]; [exact PB|]. apply in_app_or in Hin. destruct Hin as [Hin|Hin].
  - exact (F c l r (or_introl eq_refl) Hc a Hin).
  - destruct Hin as [<- | Hin]; [exact PE|]. apply IH; auto.
    intros; eapply F; eauto. now right.
Qed.

Lemma step_todo s t a s' : step s t a s' -> forall u a', In a' (todo s' u) -> In a' (todo s u).
Proof.
  intros S u a'. destruct S as [s t m k T O | s t m k T O | s t x k T | s t x k T | s t k T | s t k T];
  cbn; (destruct (Nat.eq_dec u t) as [->|N]; [rewrite set_same, T; now right | now rewrite set_other]).
Qed.

Lemma run_todo s h s' : run s h s' -> forall u a, In a (todo s' u) -> In a (todo s u).
Proof.
  induction 1 as [s|s h s1 t a s2 R IH S]; intros u a' H; [exact H|].
  apply IH. eapply step_todo; eauto.
Qed.

Lemma about_in s t x w : about s t x w -> exists a, In a (todo s t) /\ is_acc a x /\
  (w = true -> a = AWrite x).
Proof.
  intros [k K]. rewrite K. eexists. split; [now left|]. destruct w; split; auto.
  - now right.
  - now left.
  - discriminate.
Qed.

Lemma confined_race_free o t0 cs s x : confined o t0 cs -> reachable cs s -> ~ race_on (o, x) s.
Proof.
  intros C (s0 & h & [S _] & R) (t & t' & w & N & A & A').
  assert (Z : forall u w, about s u (o, x) w -> u = t0).
  { intros u w0 B. destruct (about_in _ _ _ _ B) as (a & Ha & Hx & _).
    apply (run_todo _ _ _ R) in Ha. destruct (Nat.eq_dec u t0) as [|Nu]; [assumption|exfalso].
    refine (calls_all (fun a => ~ is_acc a (o, x)) _ _ _ _ (S u) _ a Ha Hx).
    - intros [Q|Q]; discriminate.
    - intros [Q|Q]; discriminate.
    - intros c l r Hc Hl. destruct (C u c Hc) as [|F]; [congruence|].
      eapply exec_foreign; eauto. }
  apply Z in A. apply Z in A'. congruence.
Qed.

Lemma unwritten_race_free x cs s : (forall t c, In c (cs t) -> unwritten x c) -> reachable cs s ->
  ~ race_on x s.
Proof.
  intros C (s0 & h & [S _] & R) (t & t' & w & N & A & A').
  destruct (about_in _ _ _ _ A) as (a & Ha & Hx & W). rewrite (W eq_refl) in Ha.
  apply (run_todo _ _ _ R) in Ha.
  refine (calls_all (fun a => a <> AWrite x) _ _ _ _ (S t) _ _ Ha eq_refl).
  - discriminate.
  - discriminate.
  - intros c l r Hc Hl a' Hin ->. eapply exec_unwritten; eauto.
Qed.

(** ** Paths and schedules by computation *)

Fixpoint path (n : nat) (c : cmd) (bs : list bool) : option (list act * bool * list bool) :=
  match n with
  | 0 => None
  | S n =>
    match c with
    | Skip => Some ([], false, bs)
    | Rd x => Some ([ARead x], false, bs)
    | Wr x => Some ([AWrite x], false, bs)
    | Lk m => Some ([ALock m], false, bs)
    | Un m => Some ([AUnlock m], false, bs)
    | Sq a b => match path n a bs with
                | Some (l, false, bs1) =>
                    match path n b bs1 with
                    | Some (k, r, bs2) => Some (l ++ k, r, bs2)
                    | None => None
                    end
                | r => r
                end
    | Alt a b => match bs with
                 | true :: bs => path n a bs
                 | false :: bs => path n b bs
                 | [] => None
                 end
    | Rep a => match bs with
               | true :: bs => match path n a bs with
                               | Some (l, false, bs1) =>
                                   match path n (Rep a) bs1 with
                                   | Some (k, r, bs2) => Some (l ++ k, r, bs2)
                                   | None => None
                                   end
                               | r => r
                               end
               | false :: bs => Some ([], false, bs)
               | [] => None
               end
    | Guard m a => match path n a bs with
                   | Some (l, r, bs1) => Some (ALock m :: l ++ [AUnlock m], r, bs1)
                   | None => None
                   end
    | Throw => Some ([], true, bs)
    end
  end.

Lemma path_sound n : forall c bs l r bs', path n c bs = Some (l, r, bs') -> exec c l r.
Proof.
  induction n as [|n IH]; intros c bs l r bs' E; [discriminate|].
  destruct c; cbn [path] in E; try (inversion E; subst; constructor; fail).
  - destruct (path n c1 bs) as [[[l1 [|] ] bs1]|] eqn:E1; try discriminate.
    + inversion E; subst. apply x_sqt. eauto.
    + destruct (path n c2 bs1) as [[[l2 r2] bs2]|] eqn:E2; [|discriminate].
      inversion E; subst. eapply x_sq; eauto.
  - destruct bs as [|[|] bs]; [discriminate| |].
    + apply x_alt1. eauto.
    + apply x_alt2. eauto.
  - destruct bs as [|[|] bs]; [discriminate| |].
    + destruct (path n c bs) as [[[l1 [|] ] bs1]|] eqn:E1; try discriminate.
      * inversion E; subst. apply x_rept. eauto.
      * destruct (path n (Rep c) bs1) as [[[l2 r2] bs2]|] eqn:E2; [|discriminate].
        inversion E; subst. eapply x_rep; eauto.
    + inversion E; subst. constructor.
  - destruct (path n c bs) as [[[l1 r1] bs1]|] eqn:E1; [|discriminate].
    inversion E; subst. constructor. eauto.
Qed.

Fixpoint paths (n : nat) (cs : list cmd) (bs : list bool) : option (list act) :=
  match cs with
  | [] => Some []
  | c :: cs => match path n c bs with
               | Some (l, r, bs1) =>
                   match paths n cs bs1 with
                   | Some k => Some (ABegin :: l ++ AEnd :: k)
                   | None => None
                   end
               | None => None
               end
  end.

Lemma paths_sound n cs : forall bs l, paths n cs bs = Some l -> calls cs l.
Proof.
  induction cs as [|c cs IH]; intros bs l E; cbn [paths] in E.
  - inversion E; subst. constructor.
  - destruct (path n c bs) as [[[l1 r1] bs1]|] eqn:E1; [|discriminate].
    destruct (paths n cs bs1) as [k|] eqn:E2; [|discriminate]. inversion E; subst.
    econstructor; [eapply path_sound; exact E1|eauto].
Qed.

Definition next (s : st) (t : nat) : option (act * st) :=
  match todo s t with
  | [] => None
  | a :: k =>
      let s' o := {| todo := set (todo s) t k; own := o |} in
      match a with
      | ALock m => match own s m with None => Some (a, s' (set (own s) m (Some t))) | _ => None end
      | AUnlock m => match own s m with
                     | Some u => if u =? t then Some (a, s' (set (own s) m None)) else None
                     | None => None
                     end
      | _ => Some (a, s' (own s))
      end
  end.

Lemma next_sound s t a s' : next s t = Some (a, s') -> step s t a s'.
Proof.
  unfold next. destruct (todo s t) as [|a0 k] eqn:T; [discriminate|].
  destruct a0; cbn zeta beta.
  - destruct (own s m) eqn:O; [discriminate|]. intros E; inversion E; subst. now apply s_lock.
  - destruct (own s m) as [u|] eqn:O; [|discriminate].
    destruct (Nat.eqb_spec u t) as [->|]; [|discriminate].
    intros E; inversion E; subst. now apply s_unlock.
  - intros E; inversion E; subst. now apply s_read.
  - intros E; inversion E; subst. now apply s_write.
  - intros E; inversion E; subst. now apply s_begin.
  - intros E; inversion E; subst. now apply s_end.
Qed.

Fixpoint sched (s : st) (ts : list nat) : option (list (nat * act) * st) :=
  match ts with
  | [] => Some ([], s)
  | t :: ts => match next s t with
               | Some (a, s1) => match sched s1 ts with
                                 | Some (h, s2) => Some ((t, a) :: h, s2)
                                 | None => None
                                 end
               | None => None
               end
  end.

Lemma sched_sound ts : forall s h s', sched s ts = Some (h, s') -> run s h s'.
Proof.
  induction ts as [|t ts IH]; intros s h s' E; cbn [sched] in E.
  - inversion E; subst. constructor.
  - destruct (next s t) as [[a s1]|] eqn:E1; [|discriminate].
    destruct (sched s1 ts) as [[h1 s2]|] eqn:E2; [|discriminate]. inversion E; subst.
    change ((t, a) :: h1) with ([(t, a)] ++ h1). eapply run_trans; [|eauto].
    apply run_single. now apply next_sound.
Qed.

(** Two threads. *)
Definition two {A} (a b : list A) (t : nat) : list A :=
  match t with 0 => a | 1 => b | _ => [] end.

Definition init (a b : list act) : st := {| todo := two a b; own := fun _ => None |}.

(** [races n x c0 bs0 c1 bs1 ts]: thread 0 calls [c0], thread 1 calls [c1],
    branches as in [bs0], [bs1]; after the steps [ts] both are about to access
    [x], thread 0 or 1 writing. *)
Definition hd_acc (x : loc) (l : list act) : bool :=
  match l with a :: _ => touches x a | [] => false end.
Definition hd_wr (x : loc) (l : list act) : bool :=
  match l with AWrite y :: _ => touches x (AWrite y) | _ => false end.

Definition races (n : nat) (x : loc) (c0 : list cmd) (bs0 : list bool) (c1 : list cmd) (bs1 : list bool)
    (ts : list nat) : bool :=
  match paths n c0 bs0, paths n c1 bs1 with
  | Some l0, Some l1 =>
      match sched (init l0 l1) ts with
      | Some (_, s) => hd_acc x (todo s 0) && hd_acc x (todo s 1) &&
                       (hd_wr x (todo s 0) || hd_wr x (todo s 1))
      | None => false
      end
  | _, _ => false
  end.

Lemma hd_wr_about x s t : hd_wr x (todo s t) = true -> about s t x true.
Proof.
  unfold about. destruct (todo s t) as [|a k]; [discriminate|]. destruct a as [m|m|y|y| | ]; try discriminate.
  intros H. unfold hd_wr in H. apply touches_spec in H. destruct H as [Q|Q]; inversion Q; eauto.
Qed.
Lemma hd_acc_about x s t : hd_acc x (todo s t) = true -> exists w, about s t x w.
Proof.
  unfold about. destruct (todo s t) as [|a k]; [discriminate|]. cbn. intros H.
  apply touches_spec in H. destruct H as [-> | ->]; [exists false|exists true]; eauto.
Qed.

Lemma starts_two n c0 c1 bs0 bs1 l0 l1 : paths n c0 bs0 = Some l0 -> paths n c1 bs1 = Some l1 ->
  starts (two c0 c1) (init l0 l1).
Proof.
  intros E0 E1. split; [|reflexivity]. intros [|[|t] ]; cbn.
  - eapply paths_sound; eauto.
  - eapply paths_sound; eauto.
  - constructor.
Qed.

Lemma uses_two o ms c0 c1 : (forall c, In c (c0 ++ c1) -> In c ms \/ foreign o c) -> uses o ms (two c0 c1).
Proof.
  intros F [|[|t] ] c H; cbn in H.
  - apply F, in_or_app. now left.
  - apply F, in_or_app. now right.
  - destruct H.
Qed.

Lemma races_sound n x c0 bs0 c1 bs1 tsx : races n x c0 bs0 c1 bs1 tsx = true ->
  exists s, reachable (two c0 c1) s /\ race_on x s.
Proof.
  unfold races. destruct (paths n c0 bs0) as [l0|] eqn:E0; [|discriminate].
  destruct (paths n c1 bs1) as [l1|] eqn:E1; [|discriminate].
  destruct (sched (init l0 l1) tsx) as [[h s]|] eqn:E2; [|discriminate].
  intros H. apply andb_true_iff in H. destruct H as [H W]. apply andb_true_iff in H. destruct H as [A B].
  exists s. split.
  - exists (init l0 l1), h. split; [eapply starts_two; eauto|eapply sched_sound; eauto].
  - apply orb_true_iff in W. destruct W as [W|W].
    + destruct (hd_acc_about _ _ _ B) as [w Bw]. exists 0, 1, w. split; [lia|].
      split; [now apply hd_wr_about|exact Bw].
    + destruct (hd_acc_about _ _ _ A) as [w Aw]. exists 1, 0, w. split; [lia|].
      split; [now apply hd_wr_about|exact Aw].
Qed.

(** A call of thread 0 is torn by another thread. *)
Definition wr_of (x : loc) (b : act) : bool :=
  match b with AWrite y => touches x (AWrite y) | _ => false end.

Lemma wr_of_spec x b : wr_of x b = true -> b = AWrite x.
Proof.
  destruct b as [m|m|y|y| | ]; try discriminate. unfold wr_of. intros H.
  apply touches_spec in H. destruct H as [Q|Q]; inversion Q; auto.
Qed.

Fixpoint mid (x y : loc) (wr : bool) (k : list (nat * act)) : bool :=
  match k with
  | [] => false
  | (u, b) :: k' =>
      if u =? 0
      then (touches y b && wr) || (match b with AEnd => false | _ => mid x y wr k' end)
      else mid x y (wr || wr_of x b || wr_of y b) k'
  end.

Lemma mid_sound x y k : forall wr, mid x y wr k = true ->
  exists h2 b h3, k = h2 ++ (0, b) :: h3 /\ is_acc b y /\ ~ In (0, AEnd) h2 /\
   (wr = true \/ exists u z, u <> 0 /\ (z = x \/ z = y) /\ In (u, AWrite z) h2).
Proof.
  induction k as [|[u b] k IH]; intros wr E; cbn [mid] in E; [discriminate|].
  destruct (Nat.eqb_spec u 0) as [->|N].
  - apply orb_true_iff in E. destruct E as [E|E].
    + apply andb_true_iff in E. destruct E as [E ->]. apply touches_spec in E.
      exists [], b, k. repeat split; auto.
    + assert (Nb : b <> AEnd) by (intros ->; discriminate).
      assert (E' : mid x y wr k = true) by (destruct b; auto; discriminate).
      destruct (IH _ E') as (h2 & b' & h3 & -> & A & NE & W).
      exists ((0, b) :: h2), b', h3. repeat split; auto.
      * intros [Q|Q]; [congruence|auto].
      * destruct W as [W|(u & z & Nu & Z & I)]; [auto|]. right. exists u, z. repeat split; auto. now right.
  - destruct (IH _ E) as (h2 & b' & h3 & -> & A & NE & W).
    exists ((u, b) :: h2), b', h3. repeat split; auto.
    + intros [Q|Q]; [inversion Q; congruence|auto].
    + destruct W as [W|(u' & z & Nu & Z & I)].
      * destruct wr; [auto|]. right. cbn in W. apply orb_true_iff in W. destruct W as [W|W];
        apply wr_of_spec in W; subst; [exists u, x|exists u, y]; repeat split; auto; now left.
      * right. exists u', z. repeat split; auto. now right.
Qed.

Fixpoint tears (x y : loc) (h : list (nat * act)) : bool :=
  match h with
  | [] => false
  | (t, a) :: h' => ((t =? 0) && touches x a && mid x y false h') || tears x y h'
  end.

Lemma tears_sound x y h : tears x y h = true -> torn h x y.
Proof.
  induction h as [|[t a] h IH]; cbn [tears]; intros E; [discriminate|].
  apply orb_true_iff in E. destruct E as [E|E].
  - apply andb_true_iff in E. destruct E as [E M]. apply andb_true_iff in E. destruct E as [T A].
    apply Nat.eqb_eq in T; subst. apply touches_spec in A.
    destruct (mid_sound _ _ _ _ M) as (h2 & b & h3 & -> & B & NE & [W|(u & z & Nu & Z & I)]);
      [discriminate|].
    exists 0, u, z, a, b, [], h2, h3. repeat split; auto.
  - destruct (IH E) as (t0 & t' & z & a0 & b & h1 & h2 & h3 & -> & R).
    exists t0, t', z, a0, b, ((t, a) :: h1), h2, h3. split; [reflexivity|exact R].
Qed.

Definition tears_at (n : nat) (x y : loc) (c0 : list cmd) (bs0 : list bool) (c1 : list cmd)
    (bs1 : list bool) (ts : list nat) : bool :=
  match paths n c0 bs0, paths n c1 bs1 with
  | Some l0, Some l1 => match sched (init l0 l1) ts with
                        | Some (h, _) => tears x y h
                        | None => false
                        end
  | _, _ => false
  end.

Lemma tears_at_sound n x y c0 bs0 c1 bs1 ts : tears_at n x y c0 bs0 c1 bs1 ts = true ->
  exists s0 h s, starts (two c0 c1) s0 /\ run s0 h s /\ torn h x y.
Proof.
  unfold tears_at. destruct (paths n c0 bs0) as [l0|] eqn:E0; [|discriminate].
  destruct (paths n c1 bs1) as [l1|] eqn:E1; [|discriminate].
  destruct (sched (init l0 l1) ts) as [[h s]|] eqn:E2; [|discriminate].
  intros H. exists (init l0 l1), h, s. split; [eapply starts_two; eauto|].
  split; [eapply sched_sound; eauto|now apply tears_sound].
Qed.
