From Verif Require Import Prelude SafetyModel Sys1Model Sys1Spec.
Local Open Scope Z_scope.

(** ** The safety system *)
Definition dest (e : evid) (priv : bool) (c : lref) : option lref :=
  match e, c with
  | 0, 1%nat => if priv then Some 2%nat else None
  | 1, 2%nat => Some 3%nat
  | 2, 3%nat => if priv then Some 2%nat else None
  | 3, 1%nat | 3, 2%nat | 3, 3%nat => Some 0%nat
  | _, _ => None
  end.
Definition after (e : evid) (priv : bool) (c n : lref) : option lref :=
  match dest e priv c with
  | None => None
  | Some d => if Nat.eqb n c || Nat.ltb d n then Some d else None
  end.
Definition mksys (c n : lref) (f : lref -> Z) : sys := {| cur := Some c; nxt := Some n; nact := f |}.

Definition lv (id : Z) (t : list (evid * (lref * bool))) (a : bool) : level :=
  {| lid := id; ltrans := t; lin := []; lout := []; lact := a |}.
Lemma H_0 : H 0%nat = lv 0 [] true. Proof. vm_compute. reflexivity. Qed.
Lemma H_1 : H 1%nat = lv 1 [(0, (2%nat, true)); (3, (0%nat, false))] true. Proof. vm_compute. reflexivity. Qed.
Lemma H_2 : H 2%nat = lv 2 [(1, (3%nat, false)); (3, (0%nat, false))] false. Proof. vm_compute. reflexivity. Qed.
Lemma H_3 : H 3%nat = lv 3 [(2, (2%nat, true)); (3, (0%nat, false))] true. Proof. vm_compute. reflexivity. Qed.

Lemma le3 : forall c, (c <= 3)%nat -> c = 0%nat \/ c = 1%nat \/ c = 2%nat \/ c = 3%nat. Proof. intros; lia. Qed.

Lemma trig_gen : forall h c n f e priv, h 0%nat = H 0%nat -> h 1%nat = H 1%nat -> h 2%nat = H 2%nat -> h 3%nat = H 3%nat ->
  (c <= 3)%nat -> (n <= 3)%nat -> e = 0 \/ e = 1 \/ e = 2 \/ e = 3 ->
  triggerEvent h (mksys c n f) e priv =
  Ok (match after e priv c n with Some d => mksys c d (upd f d 0) | None => mksys c n f end).
Proof.
  intros h c n f e priv A0 A1 A2 A3 Hc Hn He. rewrite H_0 in A0. rewrite H_1 in A1. rewrite H_2 in A2. rewrite H_3 in A3.
  unfold mksys, triggerEvent. cbn [cur nxt nact].
  destruct (le3 _ Hc) as [->|[->|[->| ->]]]; rewrite ?A0, ?A1, ?A2, ?A3;
    destruct He as [->|[->|[->| ->]]]; destruct priv;
    cbn -[upd]; try reflexivity;
    destruct (le3 _ Hn) as [->|[->|[->| ->]]]; cbn -[upd]; rewrite ?A0, ?A1, ?A2, ?A3; cbn -[upd]; reflexivity.
Qed.
Lemma trig_eq : forall s c n f e priv, ss s = mksys c n f -> (c <= 3)%nat -> (n <= 3)%nat ->
  e = 0 \/ e = 1 \/ e = 2 \/ e = 3 ->
  trig e priv s = Ok (w_ss (match after e priv c n with Some d => mksys c d (upd f d 0) | None => mksys c n f end) s).
Proof. intros s c n f e priv E Hc Hn He. unfold trig. rewrite E, (trig_gen H) by auto. reflexivity. Qed.

(** ** The invariant of all interleavings *)
Inductive pair_ok : lref -> lref -> Prop :=
| q_same : forall c, (c <= 3)%nat -> pair_ok c c
| q_12 : pair_ok 1%nat 2%nat
| q_23 : pair_ok 2%nat 3%nat
| q_32 : pair_ok 3%nat 2%nat
| q_0 : forall c, (1 <= c <= 3)%nat -> pair_ok c 0%nat.

Lemma pair_le : forall c n, pair_ok c n -> (c <= 3)%nat /\ (n <= 3)%nat.
Proof. intros c n [c' L| | | |c' L]; lia. Qed.

(** The safety thread against level and counters. *)
Definition s_ok (p : spc) (c n : lref) (f : lref -> Z) : Prop :=
  match p with
  | SIdle => n <> 2%nat \/ c = 2%nat
  | SEmer k => c = 0%nat /\ k = f 0%nat
  | SInit k => c = 1%nat /\ n <> 2%nat /\ k = f 1%nat /\ 1 <= k <= 501
  | SInitT => c = 1%nat /\ n <> 2%nat /\ f 1%nat = 501
  | SInitS => c = 1%nat /\ n <> 1%nat /\ f 1%nat = 501
  | SStop k => c = 3%nat /\ n <> 2%nat /\ k = f 3%nat /\ 1 <= k <= 301
  | SSw | SSet | SArm1 | SArm2 | SStopT => c = 3%nat /\ n <> 2%nat /\ f 3%nat = 301
  | SEnd => True
  end.
Definition quiet (p : spc) : bool := match p with SIdle | SEnd => true | _ => false end.

Record inv (s : st) (c n : lref) (f : lref -> Z) : Prop := {
  i_sys : ss s = mksys c n f;
  i_pair : pair_ok c n;
  i_sp : s_ok (sp s) c n f;
  i_c0 : 0 <= f 1%nat /\ (c = 3%nat -> 0 <= f 3%nat);
  i_c1 : c = 1%nat -> quiet (sp s) = true -> n = 1%nat -> f 1%nat <= 500;
  i_c12 : c = 1%nat -> n = 2%nat -> f 1%nat = 501;
  i_c3 : c = 3%nat -> quiet (sp s) = true -> n = 3%nat -> f 3%nat <= 300;
  i_c32 : c = 3%nat -> n = 2%nat -> f 3%nat = 301;
  i_c23 : c = 2%nat -> n = 3%nat -> f 3%nat = 0;
  i_n0 : c <> 0%nat -> n = 0%nat -> f 0%nat = 0;
  i_td1 : c = 1%nat -> tdrun s = true ->
          (sp s = SIdle /\ f 1%nat = 0) \/ sp s = SInit 1 \/ (sp s = SEnd /\ n <> 1%nat /\ f 1%nat = 501);
  i_td0 : c = 0%nat -> tdrun s = false \/ (sp s = SIdle /\ f 0%nat = 0) \/ sp s = SEmer 1;
  i_src : match tp s with TIdle | TSrc => True | _ => src s <> None end;
  i_out : match tp s with TIdle | TSrc | TInt | TIntW _ _ => True | _ => iout s <> None end;
  i_per : match tp s with TPer => sout s <> None | TCatch => False | _ => True end;
  i_w0 : writes s = [] -> iprev s = 0 /\ sel s = false /\
         match tp s with
         | TIdle | TSrc | TInt => ifirst s = true
         | TIntW v _ => v = 0
         | TSw | TSwO => iout s = Some 0
         | TSwC v => v = Some 0 /\ iout s = Some 0
         | TPer => sout s = Some 0
         | _ => False
         end;
  i_w1 : length (writes s) = 1%nat -> writes s = [Some 0] }.

Lemma adopt_mk : forall c n f, adopt (mksys c n f) = mksys n n f. Proof. reflexivity. Qed.
Lemma upd0 : forall (f : lref -> Z) d l, upd f d 0 l = if Nat.eqb l d then 0 else f l. Proof. reflexivity. Qed.

Ltac sys_steps := cbn [w_ss w_td w_src w_first w_int w_prev w_sel w_armed w_switched w_sout w_write tgo sgo
  ss tdrun clk src ifirst iprev iprevt iout sel armed switched sout writes tp sp] in *.

Lemma inv_initial : forall s, initial s -> inv s 1%nat 1%nat (nact (ss s)).
Proof.
  intros s (t & n0 & s0 & E & ->).
  assert (F : setProperties test_props n0 = Ok (Some (mksys 1%nat 1%nat (upd n0 1%nat 0))))
    by reflexivity.
  rewrite F in E. injection E as <-.
  constructor; cbn; try discriminate; try tauto; try lia.
  - constructor. lia.
Qed.

(** An event *)
Lemma pair_after : forall e priv c n d, pair_ok c n -> after e priv c n = Some d -> pair_ok c d.
Proof.
  intros e priv c n d P A. unfold after in A.
  destruct (dest e priv c) as [d'|] eqn:D; [|discriminate].
  destruct (Nat.eqb n c || Nat.ltb d' n)%bool; [|discriminate]. injection A as <-.
  destruct (pair_le _ _ P) as [Lc _].
  destruct (le3 _ Lc) as [->|[->|[->| ->]]];
  destruct e as [|[[?|?|]|[?|?|]|]|?]; cbn in D; try discriminate; destruct priv; try discriminate;
    injection D as <-; constructor; lia.
Qed.

(** The event of the blocks, of the time domain or of others: not a private one. *)
Lemma inv_public : forall s c n f e, inv s c n f -> e = 1 \/ e = 3 -> exists n' f',
  trig e false s = Ok (w_ss (mksys c n' f') s) /\ inv (w_ss (mksys c n' f') s) c n' f' /\ (n' = 0%nat -> n = 0%nat \/ e = 3).
Proof.
  intros s c n f e I He. destruct (pair_le _ _ (i_pair _ _ _ _ I)) as [Lc Ln].
  rewrite (trig_eq s c n f e false (i_sys _ _ _ _ I) Lc Ln) by tauto.
  destruct (after e false c n) as [d|] eqn:A.
  2:{ exists n, f. split; [reflexivity|]. split; [|tauto]. destruct I. constructor; auto. }
  exists d, (upd f d 0). split; [reflexivity|].
  pose proof (pair_after _ _ _ _ _ (i_pair _ _ _ _ I) A) as P.
  assert (D : (c = 2%nat /\ n = 2%nat /\ d = 3%nat /\ e = 1) \/ (1 <= c <= 3 /\ d = 0 /\ n <> 0)%nat /\ e = 3).
  { unfold after in A.
    destruct He as [->| ->]; destruct (le3 _ Lc) as [->|[->|[->| ->]]]; cbn [dest] in A; try discriminate;
    destruct (le3 _ Ln) as [->|[->|[->| ->]]]; cbn in A; try discriminate; injection A as <-;
    pose proof (i_pair _ _ _ _ I) as Q; try (inversion Q; fail); auto; right; split; auto; lia. }
  split; [|intros ->; destruct D as [(_ & _ & X & _)|[_ X]]; [discriminate X|auto]].
  destruct I as [Es Pr Sp C0 C1 C12 C3 C32 C23 N0 T1 T0 Sr Ou Pe W0 W1].
  destruct D as [(-> & -> & -> & ->)|[((L1 & L3) & -> & Nn) ->]].
  - constructor; sys_steps; auto; rewrite ?upd0; cbn [Nat.eqb]; try discriminate; auto.
    + destruct (sp s); cbn in *; try discriminate; try tauto; try (destruct Sp as (X & _); discriminate X).
    + split; [tauto|discriminate].
  - constructor; sys_steps; auto; rewrite ?upd0; try discriminate.
    + destruct (sp s); cbn in *; rewrite ?upd0; cbn [Nat.eqb]; try tauto; try lia; auto.
    + intros Hc Ht. cbn [Nat.eqb]. destruct (T1 Hc Ht) as [X|[X|(X & Y & Z)]]; auto 6.
    + intros ->. lia.
Qed.

(** The time domain thread *)
Lemma inv_td : forall d s c n f, inv s c n f -> exists s' n' f',
  td_step d s = Ok s' /\ inv s' c n' f' /\ (n' = 0%nat -> n = 0%nat).
Proof.
  intros d s c n f I. unfold td_step. destruct (tp s) eqn:T.
  - (* idle *)
    eexists _, n, f. split; [reflexivity|]. split; [|auto].
    destruct I as [Es Pr Sp C0 C1 C12 C3 C32 C23 N0 T1 T0 Sr Ou Pe W0 W1]; rewrite T in *.
    constructor; sys_steps; auto; destruct (tdrun s); auto.
  - eexists _, n, f. split; [reflexivity|]. split; [|auto].
    destruct I as [Es Pr Sp C0 C1 C12 C3 C32 C23 N0 T1 T0 Sr Ou Pe W0 W1]; rewrite T in *.
    constructor; sys_steps; auto. discriminate.
  - destruct I as [Es Pr Sp C0 C1 C12 C3 C32 C23 N0 T1 T0 Sr Ou Pe W0 W1]; rewrite T in *.
    destruct (src s) as [t|] eqn:Es'; [|congruence].
    eexists _, n, f. split; [reflexivity|]. split; [|auto].
    constructor; sys_steps; auto; try congruence.
    intros W. destruct (W0 W) as (A & B & C). rewrite A, C. auto.
  - eexists _, n, f. split; [reflexivity|]. split; [|auto].
    destruct I as [Es Pr Sp C0 C1 C12 C3 C32 C23 N0 T1 T0 Sr Ou Pe W0 W1]; rewrite T in *.
    constructor; sys_steps; auto; try discriminate.
    intros W. destruct (W0 W) as (A & B & ->). auto.
  - eexists _, n, f. split; [reflexivity|]. split; [|auto].
    destruct I as [Es Pr Sp C0 C1 C12 C3 C32 C23 N0 T1 T0 Sr Ou Pe W0 W1]; rewrite T in *.
    constructor; sys_steps; auto.
    intros W. destruct (W0 W) as (A & B & C). unfold sw_in. rewrite B. auto.
  - destruct (armed s && negb (switched s) && near v)%bool eqn:Q; eexists _, n, f; (split; [reflexivity|]); (split; [|auto]);
    destruct I as [Es Pr Sp C0 C1 C12 C3 C32 C23 N0 T1 T0 Sr Ou Pe W0 W1]; rewrite T in *.
    + constructor; sys_steps; auto. intros W. destruct (W0 W) as (A & B & -> & _).
      rewrite andb_false_r in Q. discriminate Q.
    + constructor; sys_steps; auto. intros W. destruct (W0 W) as (A & B & _ & C). auto.
  - eexists _, n, f. split; [reflexivity|]. split; [|auto].
    destruct I as [Es Pr Sp C0 C1 C12 C3 C32 C23 N0 T1 T0 Sr Ou Pe W0 W1]; rewrite T in *.
    constructor; sys_steps; auto.
  - eexists _, n, f. split; [reflexivity|]. split; [|auto].
    destruct I as [Es Pr Sp C0 C1 C12 C3 C32 C23 N0 T1 T0 Sr Ou Pe W0 W1]; rewrite T in *.
    constructor; sys_steps; auto.
  - destruct (inv_public s c n f 1 I (or_introl eq_refl)) as (n' & f' & E & J & Z0). unfold evStop; rewrite E. cbn [omap bind].
    eexists _, n', f'. split; [reflexivity|]. split; [|intros X; destruct (Z0 X); [assumption|discriminate]].
    destruct J as [Es Pr Sp C0 C1 C12 C3 C32 C23 N0 T1 T0 Sr Ou Pe W0 W1]. sys_steps. rewrite T in *.
    constructor; sys_steps; auto. intros W. destruct (W0 W) as (_ & _ & []).
  - eexists _, n, f. split; [reflexivity|]. split; [|auto].
    destruct I as [Es Pr Sp C0 C1 C12 C3 C32 C23 N0 T1 T0 Sr Ou Pe W0 W1]; rewrite T in *.
    constructor; sys_steps; auto.
    + unfold sw_in. destruct (sel s); [destruct (src s); [discriminate|contradiction]|assumption].
    + intros W. destruct (W0 W) as (A & B & C). unfold sw_in. rewrite B. auto.
  - eexists _, n, f. split; [reflexivity|]. split; [|auto].
    destruct I as [Es Pr Sp C0 C1 C12 C3 C32 C23 N0 T1 T0 Sr Ou Pe W0 W1]; rewrite T in *.
    destruct (sout s) as [x|] eqn:Eo; [|congruence].
    constructor; sys_steps; auto; try discriminate.
    intros L. destruct (writes s) as [|w ws]; [|discriminate L].
    destruct (W0 eq_refl) as (_ & _ & X). congruence.
  - exfalso. pose proof (i_per _ _ _ _ I) as X. rewrite T in X. exact X.
Qed.

(** The safety system *)
Ltac le3s := match goal with P : pair_ok ?c ?n |- _ => destruct (pair_le _ _ P) end.
Lemma u32_small : forall z, 0 <= z < 2 ^ 32 -> u32 z = z.
Proof. intros. unfold u32. apply Z.mod_small. assumption. Qed.

Lemma inv_safe : forall s c n f, inv s c n f -> exists s' c' n' f',
  safe_step s = Ok s' /\ inv s' c' n' f' /\ (n' = 0%nat -> n = 0%nat).
Proof.
  intros s c n f I. unfold safe_step. destruct (sp s) eqn:S.
  - (* SIdle *)
    rewrite (i_sys _ _ _ _ I), adopt_mk. cbn [mksys cur nxt nact].
    eexists _, n, n, (upd f n (u32 (f n + 1))). split; [reflexivity|]. split; [|auto].
    destruct I as [Es Pr Sp C0 C1 C12 C3 C32 C23 N0 T1 T0 Sr Ou Pe W0 W1]; rewrite S in *. cbn [quiet s_ok] in *.
    destruct (pair_le _ _ Pr) as [Lc Ln].
    assert (Hf1 : n = 1%nat -> c = 1%nat /\ 0 <= f 1%nat <= 500).
    { intros ->. assert (c = 1%nat) by (inversion Pr; reflexivity). subst. split; [reflexivity|]. split; [tauto|auto]. }
    assert (Hf3 : n = 3%nat -> 0 <= f 3%nat <= 300).
    { intros ->. inversion Pr; subst; [split; [tauto|auto]|]. rewrite C23 by reflexivity. lia. }
    destruct (le3 _ Ln) as [->|[->|[->| ->]]]; constructor; sys_steps; auto; try discriminate; try (constructor; lia);
      unfold upd; cbn [Nat.eqb s_ok]; try discriminate.
    all: try (rewrite u32_small by (specialize (Hf1 eq_refl); lia)).
    all: try (rewrite u32_small by (specialize (Hf3 eq_refl); lia)).
    all: try (specialize (Hf1 eq_refl)); try (specialize (Hf3 eq_refl)).
    all: try (split; [tauto|discriminate]); try (split; [lia|intros; lia]); try lia; auto.
    + intros _. destruct (Nat.eq_dec c 0) as [C|C].
      * destruct (T0 C) as [X|[[_ X]|X]]; [auto|rewrite X; auto|discriminate].
      * rewrite (N0 C eq_refl). auto.
    + intros _ Ht. destruct Hf1 as [Hc _]. destruct (T1 Hc Ht) as [[_ X]|[X|[X _]]]; try discriminate. rewrite X. auto.
  - (* SEmer *)
    eexists _, c, n, f. split; [reflexivity|]. split; [|auto].
    destruct I as [Es Pr Sp C0 C1 C12 C3 C32 C23 N0 T1 T0 Sr Ou Pe W0 W1]; rewrite S in *. cbn [quiet s_ok] in *.
    destruct Sp as [-> ->]. destruct (Z.eqb_spec (f 0%nat) 1) as [E|E]; constructor; sys_steps; auto; try discriminate; cbn; auto.
    intros _. destruct (T0 eq_refl) as [X|[[X _]|X]]; [auto|discriminate|]. injection X as X. contradiction.
  - (* SInit *)
    eexists _, c, n, f. split; [reflexivity|]. split; [|auto].
    destruct I as [Es Pr Sp C0 C1 C12 C3 C32 C23 N0 T1 T0 Sr Ou Pe W0 W1]; rewrite S in *. cbn [quiet s_ok] in *.
    destruct Sp as (-> & Hn & -> & L). unfold init_done. destruct (Z.ltb_spec 500 (f 1%nat)) as [E|E];
      constructor; sys_steps; auto; try discriminate; cbn; auto.
    split; [auto|]. split; [auto|]. lia.
  - (* SInitT *)
    destruct (pair_le _ _ (i_pair _ _ _ _ I)) as [Lc Ln].
    unfold evStart. rewrite (trig_eq s c n f 0 true (i_sys _ _ _ _ I) Lc Ln) by auto. cbn [omap bind].
    pose proof (i_pair _ _ _ _ I) as P.
    destruct I as [Es Pr Sp C0 C1 C12 C3 C32 C23 N0 T1 T0 Sr Ou Pe W0 W1]; rewrite S in *. cbn [quiet s_ok] in *.
    destruct Sp as (-> & Hn & Hf).
    assert (Hn' : n = 1%nat \/ n = 0%nat) by (inversion P; subst; auto; contradiction).
    destruct Hn' as [->| ->]; cbn [after dest Nat.eqb orb Nat.ltb Nat.leb].
    + eexists _, 1%nat, 2%nat, (upd f 2%nat 0). split; [reflexivity|]. split; [|discriminate].
      constructor; sys_steps; auto; unfold upd; cbn [Nat.eqb]; try discriminate; try apply q_12; cbn; auto.
      * intros _ Ht. destruct (T1 eq_refl Ht) as [[X _]|[X|[X _]]]; discriminate.
    + eexists _, 1%nat, 0%nat, f. split; [reflexivity|]. split; [|auto].
      constructor; sys_steps; auto; try discriminate; cbn; auto.
      intros _ Ht. destruct (T1 eq_refl Ht) as [[X _]|[X|[X _]]]; discriminate.
  - (* SInitS *)
    eexists _, c, n, f. split; [reflexivity|]. split; [|auto].
    destruct I as [Es Pr Sp C0 C1 C12 C3 C32 C23 N0 T1 T0 Sr Ou Pe W0 W1]; rewrite S in *. cbn [quiet s_ok] in *.
    destruct Sp as (-> & Hn & Hf). constructor; sys_steps; auto; try discriminate; cbn; auto.
  - (* SStop *)
    eexists _, c, n, f. split; [reflexivity|]. split; [|auto].
    destruct I as [Es Pr Sp C0 C1 C12 C3 C32 C23 N0 T1 T0 Sr Ou Pe W0 W1]; rewrite S in *. cbn [quiet s_ok] in *.
    destruct Sp as (-> & Hn & -> & L). unfold stop_done. destruct (Z.ltb_spec 300 (f 3%nat)) as [E|E];
      constructor; sys_steps; auto; try discriminate; cbn; auto.
    split; [auto|]. split; [auto|]. lia.
  - eexists _, c, n, f. split; [reflexivity|]. split; [|auto].
    destruct I as [Es Pr Sp C0 C1 C12 C3 C32 C23 N0 T1 T0 Sr Ou Pe W0 W1]; rewrite S in *. cbn [quiet s_ok] in *.
    destruct Sp as (-> & Hn & Hf). constructor; sys_steps; auto; try discriminate; cbn; auto.
    intros W. destruct (W0 W) as (A & B & C). split; [auto|]. split; auto.
  - eexists _, c, n, f. split; [reflexivity|]. split; [|auto].
    destruct I as [Es Pr Sp C0 C1 C12 C3 C32 C23 N0 T1 T0 Sr Ou Pe W0 W1]; rewrite S in *. cbn [quiet s_ok] in *.
    destruct Sp as (-> & Hn & Hf). constructor; sys_steps; auto; try discriminate; cbn; auto.
    intros W. destruct (W0 W) as (A & B & C). split; [auto|]. split; auto.
  - eexists _, c, n, f. split; [reflexivity|]. split; [|auto].
    destruct I as [Es Pr Sp C0 C1 C12 C3 C32 C23 N0 T1 T0 Sr Ou Pe W0 W1]; rewrite S in *. cbn [quiet s_ok] in *.
    destruct Sp as (-> & Hn & Hf). constructor; sys_steps; auto; try discriminate; cbn; auto.
  - eexists _, c, n, f. split; [reflexivity|]. split; [|auto].
    destruct I as [Es Pr Sp C0 C1 C12 C3 C32 C23 N0 T1 T0 Sr Ou Pe W0 W1]; rewrite S in *. cbn [quiet s_ok] in *.
    destruct Sp as (-> & Hn & Hf). constructor; sys_steps; auto; try discriminate; cbn; auto.
  - (* SStopT *)
    destruct (pair_le _ _ (i_pair _ _ _ _ I)) as [Lc Ln].
    unfold evRestart. rewrite (trig_eq s c n f 2 true (i_sys _ _ _ _ I) Lc Ln) by auto. cbn [omap bind].
    pose proof (i_pair _ _ _ _ I) as P.
    destruct I as [Es Pr Sp C0 C1 C12 C3 C32 C23 N0 T1 T0 Sr Ou Pe W0 W1]; rewrite S in *. cbn [quiet s_ok] in *.
    destruct Sp as (-> & Hn & Hf).
    assert (Hn' : n = 3%nat \/ n = 0%nat) by (inversion P; subst; auto; contradiction).
    destruct Hn' as [->| ->]; cbn [after dest Nat.eqb orb Nat.ltb Nat.leb].
    + eexists _, 3%nat, 2%nat, (upd f 2%nat 0). split; [reflexivity|]. split; [|discriminate].
      constructor; sys_steps; auto; unfold upd; cbn [Nat.eqb]; try discriminate; try apply q_32; cbn; auto.
    + eexists _, 3%nat, 0%nat, f. split; [reflexivity|]. split; [|auto].
      constructor; sys_steps; auto; try discriminate; cbn; auto.
  - (* SEnd *)
    rewrite (i_sys _ _ _ _ I), adopt_mk.
    eexists _, n, n, f. split; [reflexivity|]. split; [|auto].
    destruct I as [Es Pr Sp C0 C1 C12 C3 C32 C23 N0 T1 T0 Sr Ou Pe W0 W1]; rewrite S in *. cbn [quiet s_ok] in *.
    destruct (pair_le _ _ Pr) as [Lc Ln].
    constructor; sys_steps; auto; try (constructor; lia); cbn.
    + destruct (Nat.eq_dec n 2); auto.
    + split; [tauto|]. intros ->. inversion Pr; subst; [tauto|]. rewrite C23 by reflexivity. lia.
    + intros -> _ _. assert (c = 1%nat) by (inversion Pr; reflexivity). auto.
    + intros -> E. discriminate E.
    + intros -> _ _. inversion Pr; subst; [auto|]. rewrite C23 by reflexivity. lia.
    + intros -> E. discriminate E.
    + intros -> E. discriminate E.
    + intros -> Ht. assert (c = 1%nat) by (inversion Pr; reflexivity). subst.
      destruct (T1 eq_refl Ht) as [[X _]|[X|(_ & X & _)]]; try discriminate. contradiction.
    + intros ->. destruct (Nat.eq_dec c 0) as [C|C].
      * destruct (T0 C) as [X|[[X _]|X]]; [auto|discriminate|discriminate].
      * right. left. auto.
Qed.


Lemma inv_step : forall l s c n f, inv s c n f -> exists s' c' n' f',
  step l s = Ok s' /\ inv s' c' n' f' /\ (n' = 0%nat -> n = 0%nat \/ is_emergency l = true).
Proof.
  intros [d| |] s c n f I.
  - destruct (inv_td d s c n f I) as (s' & n' & f' & E & J & Z0). exists s', c, n', f'. auto.
  - destruct (inv_safe s c n f I) as (s' & c' & n' & f' & E & J & Z0). exists s', c', n', f'. auto.
  - destruct (inv_public s c n f 3 I (or_intror eq_refl)) as (n' & f' & E & J & _).
    exists (w_ss (mksys c n' f') s), c, n', f'. auto.
Qed.

Lemma inv_steps : forall ls s c n f, inv s c n f -> exists s' c' n' f',
  steps ls s = Ok s' /\ inv s' c' n' f' /\ (n' = 0%nat -> n = 0%nat \/ existsb is_emergency ls = true).
Proof.
  induction ls as [|l ls IH]; intros s c n f I.
  - exists s, c, n, f. auto.
  - destruct (inv_step l s c n f I) as (s1 & c1 & n1 & f1 & E & J & Z0).
    destruct (IH s1 c1 n1 f1 J) as (s2 & c2 & n2 & f2 & E2 & J2 & Z2).
    exists s2, c2, n2, f2. split; [cbn [steps]; rewrite E; exact E2|]. split; [exact J2|].
    intros X. cbn [existsb]. destruct (Z2 X) as [Y|Y]; [destruct (Z0 Y) as [A|A]; [auto|]|]; right; rewrite ?A, ?Y; auto using orb_true_r.
Qed.

Lemma inv_reach : forall s, reach s -> exists c n f, inv s c n f.
Proof.
  intros s (s0 & ls & I0 & E). destruct (inv_steps ls s0 _ _ _ (inv_initial _ I0)) as (s' & c & n & f & E' & J & _).
  rewrite E in E'. injection E' as <-. eauto.
Qed.

(** ** Theorems about all interleavings *)
Lemma total : forall s0 ls, initial s0 -> exists s, steps ls s0 = Ok s.
Proof. intros s0 ls I. destruct (inv_steps ls s0 _ _ _ (inv_initial _ I)) as (s & _ & _ & _ & E & _). eauto. Qed.

Lemma init_stopped : forall s, reach s -> level_at s slInitializing -> tdrun s = true ->
  nact (ss s) slInitializing <= 1 \/ ~ next_is s slInitializing.
Proof.
  intros s R L T. destruct (inv_reach s R) as (c & n & f & I). unfold level_at, next_is in *. rewrite (i_sys _ _ _ _ I) in *.
  cbn in *. injection L as L. destruct (i_td1 _ _ _ _ I L T) as [[_ X]|[X|(_ & X & _)]].
  - left. unfold slInitializing. lia.
  - left. pose proof (i_sp _ _ _ _ I) as S. rewrite X in S. destruct S as (_ & _ & S & _). unfold slInitializing. lia.
  - right. unfold slInitializing. congruence.
Qed.

Lemma first_write : forall s w, reach s -> writes s = [w] -> w = Some 0.
Proof.
  intros s w R W. destruct (inv_reach s R) as (c & n & f & I). pose proof (i_w1 _ _ _ _ I) as X. rewrite W in X.
  specialize (X eq_refl). congruence.
Qed.

Lemma pauses : forall s, reach s -> next_is s slRunning ->
  (level_at s slInitializing -> nact (ss s) slInitializing = 501) /\
  (level_at s slStopped -> nact (ss s) slStopped = 301).
Proof.
  intros s R N. destruct (inv_reach s R) as (c & n & f & I). unfold level_at, next_is in *. rewrite (i_sys _ _ _ _ I) in *.
  cbn in *. injection N as N. split; intros L; injection L as L; unfold slInitializing, slStopped in *.
  - apply (i_c12 _ _ _ _ I); auto.
  - apply (i_c32 _ _ _ _ I); auto.
Qed.
