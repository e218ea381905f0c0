(** Proofs about frames and coordinate systems. *)
From Coq Require Import Ascii String.
From Verif Require Import Prelude Num MatModel MatProofs ConfModel ConfProofs FrameModel FrameSpec.
Open Scope nat_scope.

Section Frame.
Context (T : num).
Notation state := (state T). Notation op := (op T). Notation step := (step T). Notation run := (run T).

(** ** The list of frames *)
Record reg (s : state) : Prop := {
  r_nodup : NoDup (fr_list s);
  r_live : forall f, In f (fr_list s) -> fr s f <> None;
  r_uniq : forall f g x y, In f (fr_list s) -> In g (fr_list s) -> fr s f = Some x -> fr s g = Some y -> f_a x = f_a y -> f_b x = f_b y -> f = g
}.
Definition all_reg (s : state) : Prop := forall f, fr s f <> None -> In f (fr_list s).

Lemma find_ok l (s : state) a b : (forall f, In f l -> fr s f <> None) ->
  exists p, find_frame T l s a b = Ok p /\ match p with
    | Some f => In f l /\ exists x, fr s f = Some x /\ f_a x = a /\ f_b x = b
    | None => forall f x, In f l -> fr s f = Some x -> ~ (f_a x = a /\ f_b x = b)
    end.
Proof.
  induction l as [|f l IH]; intros H; [exists None; split; [reflexivity|intros f x []]|]. cbn [find_frame].
  destruct (fr s f) as [x|] eqn:E; [|exfalso; apply (H f); [now left|exact E]].
  destruct (Nat.eqb_spec (f_a x) a) as [Ha|Ha], (Nat.eqb_spec (f_b x) b) as [Hb|Hb]; cbn [andb].
  1: exists (Some f); split; [reflexivity|]; split; [now left|]; exists x; auto.
  all: destruct IH as (p & Ep & Hp); [intros; apply H; now right|]; exists p; split; [exact Ep|]; destruct p as [g|].
  1, 3, 5: destruct Hp as [Hi Hx]; split; [now right|exact Hx].
  all: intros f' x' [<-|Hi] Hx; [rewrite E in Hx; injection Hx as <-; tauto|now apply (Hp f')].
Qed.
Lemma fr_set (s : state) f x l g : fr (set_fr T s f x l) g = if g =? f then x else fr s g.
Proof. unfold set_fr, upd. cbn. reflexivity. Qed.
Lemma construct_ok (s : state) addr a b M : reg s -> fr s addr = None ->
  exists s' r, construct T s addr a b M = Ok (s', r) /\
    ((r = Thrown /\ s' = s /\ exists f x, In f (fr_list s) /\ fr s f = Some x /\ f_a x = a /\ f_b x = b) \/
     (r = Done /\ s' = set_fr T s addr (Some {| f_a := a; f_b := b; f_T := M |}) (fr_list s ++ [addr]) /\ forall f x, In f (fr_list s) -> fr s f = Some x -> ~ (f_a x = a /\ f_b x = b))).
Proof.
  intros R N. unfold construct. destruct (find_ok (fr_list s) s a b (r_live _ R)) as (p & E & H). rewrite E. cbn [bind]. destruct p as [f|].
  - exists s, Thrown. split; [reflexivity|]. left. destruct H as [Hi (x & A & B & C)]. split; [reflexivity|]. split; [reflexivity|]. exists f, x. auto.
  - eexists _, Done. split; [reflexivity|]. right. auto.
Qed.
Lemma reg_add (s : state) addr a b M : reg s -> fr s addr = None -> (forall f x, In f (fr_list s) -> fr s f = Some x -> ~ (f_a x = a /\ f_b x = b)) ->
  reg (set_fr T s addr (Some {| f_a := a; f_b := b; f_T := M |}) (fr_list s ++ [addr])).
Proof.
  intros R N H. assert (Na : ~ In addr (fr_list s)) by (intros Hi; now apply (r_live _ R addr Hi)). constructor.
  - cbn. apply NoDup_snoc; [apply R|exact Na].
  - cbn [fr_list set_fr]. intros f Hf. rewrite fr_set. destruct (Nat.eqb_spec f addr); [discriminate|]. apply in_app_iff in Hf. destruct Hf as [Hf|[<-|[]]]; [now apply (r_live _ R)|congruence].
  - cbn [fr_list set_fr]. intros f g x y Hf Hg. rewrite !fr_set. apply in_app_iff in Hf, Hg.
    assert (K : forall f, In f (fr_list s) -> f =? addr = false) by (intros h Hh; apply Nat.eqb_neq; intros ->; contradiction).
    destruct Hf as [Hf|[<-|[]]], Hg as [Hg|[<-|[]]]; rewrite ?(K f Hf), ?(K g Hg), ?Nat.eqb_refl; intros Ex Ey Ea Eb.
    + now apply (r_uniq _ R f g x y).
    + exfalso. injection Ey as <-. now apply (H f x Hf Ex).
    + exfalso. injection Ex as <-. apply (H g y Hg Ey). cbn in *. auto.
    + reflexivity.
Qed.
Lemma reg_del (s : state) f : reg s -> reg (set_fr T s f None (remove_addr f (fr_list s))).
Proof.
  intros R. assert (K : forall g, In g (remove_addr f (fr_list s)) -> In g (fr_list s) /\ g =? f = false) by (intros g Hg; apply filter_In in Hg; destruct Hg as [A B]; apply negb_true_iff in B; auto).
  constructor; cbn [fr_list set_fr].
  - apply NoDup_filter. apply R.
  - intros g Hg. rewrite fr_set. destruct (K g Hg) as [A ->]. now apply (r_live _ R).
  - intros g h x y Hg Hh. rewrite !fr_set. destruct (K g Hg) as [A ->], (K h Hh) as [B ->]. now apply (r_uniq _ R).
Qed.
Lemma reg_set (s : state) f x M : reg s -> fr s f = Some x -> reg (set_fr T s f (Some {| f_a := f_a x; f_b := f_b x; f_T := M |}) (fr_list s)).
Proof.
  intros R E. constructor; cbn [fr_list set_fr].
  - apply R.
  - intros g Hg. rewrite fr_set. destruct (g =? f); [discriminate|now apply (r_live _ R)].
  - intros g h y z Hg Hh. rewrite !fr_set. assert (P : forall k u, (if k =? f then Some {| f_a := f_a x; f_b := f_b x; f_T := M |} else fr s k) = Some u -> exists v, fr s k = Some v /\ f_a v = f_a u /\ f_b v = f_b u).
    { intros k u. destruct (Nat.eqb_spec k f) as [->|]; [intros Q; injection Q as <-; exists x; auto|intros Q; exists u; auto]. }
    intros Ey Ez Ha Hb. destruct (P _ _ Ey) as (y' & Y & Ya & Yb), (P _ _ Ez) as (z' & Z & Za & Zb). apply (r_uniq _ R g h y' z'); congruence.
Qed.
Lemma reg_same (s s' : state) : fr s' = fr s -> fr_list s' = fr_list s -> reg s -> reg s'.
Proof. intros A B [C D E]. constructor; rewrite ?A, ?B; assumption. Qed.

Lemma step_reg (s s' : state) o r : reg s -> step s o = Ok (s', r) -> reg s' /\ (all_reg s -> plain T o -> all_reg s').
Proof.
  intros R H. destruct o; cbn [FrameModel.step] in H.
  - destruct (cs s addr); [discriminate|]. destruct (lookup id (cs_list s)); injection H as <- <-; [tauto|]. split; [now apply (reg_same s)|tauto].
  - destruct (cs s addr); [|discriminate]. injection H as <- <-. split; [now apply (reg_same s)|tauto].
  - destruct (lookup id (cs_list s)); injection H as <- <-; [tauto|]. split; [now apply (reg_same s)|tauto].
  - destruct (fr s addr) eqn:N; [discriminate|]. destruct (_ && _); [|discriminate]. destruct (eye_ok T 4 4 g) as (M & E & _). rewrite E in H. cbn [bind] in H.
    destruct (construct_ok s addr a b M R N) as (s1 & r1 & E1 & [(-> & -> & _)|(-> & -> & K)]); rewrite E1 in H; injection H as <- <-; [tauto|]. split; [now apply reg_add|].
    intros A _ f. rewrite fr_set. cbn [fr_list set_fr]. intros Hf. apply in_app_iff. destruct (Nat.eqb_spec f addr) as [Q|]; [subst f; right; now left|left; now apply A].
  - destruct (fr s addr) eqn:N; [discriminate|]. destruct (_ && _); [|discriminate].
    destruct (construct_ok s addr a b M R N) as (s1 & r1 & E1 & [(-> & -> & _)|(-> & -> & K)]); rewrite E1 in H; injection H as <- <-; [tauto|]. split; [now apply reg_add|].
    intros A _ f. rewrite fr_set. cbn [fr_list set_fr]. intros Hf. apply in_app_iff. destruct (Nat.eqb_spec f addr) as [Q|]; [subst f; right; now left|left; now apply A].
  - destruct (fr s addr) eqn:N; [discriminate|]. destruct (_ && _); [|discriminate].
    destruct (construct_ok s addr a b (set_rt T g R0 r0) R N) as (s1 & r1 & E1 & [(-> & -> & _)|(-> & -> & K)]); rewrite E1 in H; injection H as <- <-; [tauto|]. split; [now apply reg_add|].
    intros A _ f. rewrite fr_set. cbn [fr_list set_fr]. intros Hf. apply in_app_iff. destruct (Nat.eqb_spec f addr) as [Q|]; [subst f; right; now left|left; now apply A].
  - destruct (fr s addr) eqn:N; [discriminate|]. destruct (fr s f) as [x|] eqn:F; [|discriminate]. injection H as <- <-. split; [|cbn; tauto].
    assert (K : forall g, In g (fr_list s) -> g =? addr = false) by (intros g Hg; apply Nat.eqb_neq; intros ->; now apply (r_live _ R addr Hg)).
    constructor; cbn [fr_list set_fr]; [apply R| |].
    + intros g Hg. rewrite fr_set, (K g Hg). now apply (r_live _ R).
    + intros g h y z Hg Hh. rewrite !fr_set, (K g Hg), (K h Hh). now apply (r_uniq _ R).
  - destruct (fr s f) as [x|] eqn:F; [|discriminate]. injection H as <- <-. split; [now apply reg_del|]. intros A _ g. rewrite fr_set. cbn [fr_list set_fr]. destruct (Nat.eqb_spec g f) as [->|Hne]; [congruence|]. intros Hg.
    apply filter_In. split; [now apply A|]. apply Nat.eqb_neq in Hne. now rewrite Hne.
  - destruct (fr s f) as [x|] eqn:F; [|discriminate]. injection H as <- <-. split; [now apply reg_set|]. intros A _ g. rewrite fr_set. cbn [fr_list set_fr]. destruct (Nat.eqb_spec g f) as [Q|]; intros Hg; apply A; congruence.
  - destruct (fr s f) as [x|] eqn:F; [|discriminate]. injection H as <- <-. split; [now apply reg_set|]. intros A _ g. rewrite fr_set. cbn [fr_list set_fr]. destruct (Nat.eqb_spec g f) as [Q|]; intros Hg; apply A; congruence.
  - destruct (fr s addr) eqn:N; [discriminate|]. destruct (fr s f1) as [x|] eqn:F1; [|discriminate]. destruct (fr s f2) as [y|] eqn:F2; [|discriminate].
    destruct (f_b x =? f_a y); [|injection H as <- <-; tauto]. destruct (mul_ok T 4 4 4 (f_T x) (f_T y) g) as (M & E & _). rewrite E in H. cbn [bind] in H.
    destruct (construct_ok s addr (f_a x) (f_b y) M R N) as (s1 & r1 & E1 & [(-> & -> & _)|(-> & -> & K)]); rewrite E1 in H; cbn [bind] in H; injection H as <- <-; [tauto|].
    destruct elided.
    + split; [now apply reg_add|]. intros A _ f. rewrite fr_set. cbn [fr_list set_fr]. intros Hf. apply in_app_iff. destruct (Nat.eqb_spec f addr) as [Q|]; [subst f; right; now left|left; now apply A].
    + split; [|cbn; discriminate]. assert (Q : forall g, In g (fr_list s) -> g =? addr = false) by (intros k Hg; apply Nat.eqb_neq; intros ->; now apply (r_live _ R addr Hg)).
      constructor; cbn [fr_list set_fr fr cs]; [apply R| |]; unfold upd.
      * intros k Hg. change (k =? addr) with (k =? addr). rewrite (Q k Hg). now apply (r_live _ R).
      * intros k h u z Hg Hh. rewrite (Q k Hg), (Q h Hh). now apply (r_uniq _ R).
  - destruct (find_frame T (fr_list s) s a b); try discriminate. injection H as <- <-. tauto.
  - injection H as <- <-. tauto.
Qed.
Lemma reg0 : reg (state0 T).
Proof. constructor; cbn; [constructor|tauto|tauto]. Qed.
Lemma run_reg ops : forall s s' rs, reg s -> run s ops = Ok (s', rs) -> reg s' /\ (all_reg s -> Forall (plain T) ops -> all_reg s').
Proof.
  induction ops as [|o ops IH]; intros s s' rs R H; cbn [FrameModel.run] in H; [injection H as <- <-; tauto|].
  destruct (step s o) as [[s1 r]| |] eqn:E; try discriminate. cbn [bind] in H. destruct (run s1 ops) as [[s2 rs2]| |] eqn:E2; try discriminate. injection H as <- <-.
  destruct (step_reg s s1 o r R E) as [R1 A1]. destruct (IH s1 s2 rs2 R1 E2) as [R2 A2]. split; [exact R2|]. intros A F. inversion F; subst. auto.
Qed.
Lemma unique_frames ops s rs : run (state0 T) ops = Ok (s, rs) -> Forall (plain T) ops ->
  forall f g x y, fr s f = Some x -> fr s g = Some y -> f_a x = f_a y -> f_b x = f_b y -> f = g.
Proof.
  intros H F f g x y Hx Hy. destruct (run_reg ops _ _ _ reg0 H) as [R A]. assert (A' : all_reg s) by (apply A; [intros f' Hf'; now contradiction Hf'|exact F]).
  apply (r_uniq _ R); try assumption; apply A'; congruence.
Qed.
(** The lookup finds exactly the live frame. *)
Lemma get_frame ops s rs a b : run (state0 T) ops = Ok (s, rs) -> Forall (plain T) ops ->
  exists p, step s (GetFrame a b) = Ok (s, Ptr p) /\ forall f, p = Some f <-> exists x, fr s f = Some x /\ f_a x = a /\ f_b x = b.
Proof.
  intros H F. destruct (run_reg ops _ _ _ reg0 H) as [R A]. assert (A' : all_reg s) by (apply A; [intros f' Hf'; now contradiction Hf'|exact F]).
  destruct (find_ok (fr_list s) s a b (r_live _ R)) as (p & E & Hp). exists p. cbn [FrameModel.step]. rewrite E. split; [reflexivity|]. intros f. split.
  - intros ->. destruct Hp as [_ Hp]. exact Hp.
  - intros (x & Hx & Ha & Hb). destruct p as [g|].
    + destruct Hp as [Hg (y & Hy & Ya & Yb)]. f_equal. apply (r_uniq _ R g f y x); try assumption; try congruence. apply A'. congruence.
    + exfalso. apply (Hp f x); auto. apply A'. congruence.
Qed.
(** Products. *)
Lemma product_reg (s : state) addr f1 f2 x y g : reg s -> fr s addr = None -> fr s f1 = Some x -> fr s f2 = Some y -> f_b x = f_a y ->
  (forall f z, fr s f = Some z -> ~ (f_a z = f_a x /\ f_b z = f_b y)) ->
  exists s' M, step s (Mul addr f1 f2 true g) = Ok (s', Done) /\ m_mul T 4 4 4 (f_T x) (f_T y) g = Ok M /\
    fr s' addr = Some {| f_a := f_a x; f_b := f_b y; f_T := M |} /\ (forall f, f <> addr -> fr s' f = fr s f) /\ fr_list s' = fr_list s ++ [addr] /\
    forall m k, m < 4 -> k < 4 -> M (4 * k + m) = accum T (fun n => nmul T (f_T x (4 * n + m)) (f_T y (4 * k + n))) 4.
Proof.
  intros R N X Y B Free. destruct (mul_ok T 4 4 4 (f_T x) (f_T y) g) as (M & E & HM).
  destruct (construct_ok s addr (f_a x) (f_b y) M R N) as (s1 & r1 & E1 & [(_ & _ & f & z & _ & Hz & Ha & Hb)|(-> & -> & _)]).
  - exfalso. exact (Free f z Hz (conj Ha Hb)).
  - eexists _, M. cbn [FrameModel.step]. rewrite N, X, Y, B, Nat.eqb_refl, E. cbn [bind]. rewrite E1. cbn [bind]. split; [reflexivity|]. split; [reflexivity|].
    rewrite fr_set, Nat.eqb_refl. split; [reflexivity|]. split; [|split; [reflexivity|exact HM]]. intros f Hf. rewrite fr_set. apply Nat.eqb_neq in Hf. now rewrite Hf.
Qed.
Lemma product ops s rs addr f1 f2 x y g : run (state0 T) ops = Ok (s, rs) -> fr s addr = None -> fr s f1 = Some x -> fr s f2 = Some y -> f_b x = f_a y ->
  (forall f z, fr s f = Some z -> ~ (f_a z = f_a x /\ f_b z = f_b y)) ->
  exists s' M, step s (Mul addr f1 f2 true g) = Ok (s', Done) /\ m_mul T 4 4 4 (f_T x) (f_T y) g = Ok M /\
    fr s' addr = Some {| f_a := f_a x; f_b := f_b y; f_T := M |} /\ (forall f, f <> addr -> fr s' f = fr s f) /\ fr_list s' = fr_list s ++ [addr] /\
    forall m k, m < 4 -> k < 4 -> M (4 * k + m) = accum T (fun n => nmul T (f_T x (4 * n + m)) (f_T y (4 * k + n))) 4.
Proof. intros H. apply product_reg. exact (proj1 (run_reg ops _ _ _ reg0 H)). Qed.
Lemma mismatch (s : state) addr f1 f2 x y e g : fr s addr = None -> fr s f1 = Some x -> fr s f2 = Some y -> f_b x <> f_a y -> step s (Mul addr f1 f2 e g) = Ok (s, Thrown).
Proof. intros N X Y B. cbn [FrameModel.step]. rewrite N, X, Y. apply Nat.eqb_neq in B. now rewrite B. Qed.
(** Creating a frame for a pair that has one changes nothing. *)
Lemma duplicate ops s rs addr a b M f x : run (state0 T) ops = Ok (s, rs) -> Forall (plain T) ops -> fr s addr = None -> cs s a <> None -> cs s b <> None -> fr s f = Some x -> f_a x = a -> f_b x = b ->
  step s (NewFrameT addr a b M) = Ok (s, Thrown).
Proof.
  intros H F N Ca Cb Hx Ha Hb. destruct (run_reg ops _ _ _ reg0 H) as [R A]. assert (A' : all_reg s) by (apply A; [intros f' Hf'; now contradiction Hf'|exact F]).
  destruct (construct_ok s addr a b M R N) as (s1 & r1 & E1 & [(-> & -> & _)|(-> & -> & K)]).
  - cbn [FrameModel.step]. rewrite N. unfold live_cs. destruct (cs s a); [|congruence]. destruct (cs s b); [|congruence]. exact E1.
  - exfalso. apply (K f x); auto. apply A'. congruence.
Qed.
Lemma created (s : state) addr a b M ops rs : run (state0 T) ops = Ok (s, rs) -> fr s addr = None -> cs s a <> None -> cs s b <> None -> (forall f x, fr s f = Some x -> ~ (f_a x = a /\ f_b x = b)) ->
  exists s', step s (NewFrameT addr a b M) = Ok (s', Done) /\ fr s' addr = Some {| f_a := a; f_b := b; f_T := M |} /\ (forall f, f <> addr -> fr s' f = fr s f).
Proof.
  intros H N Ca Cb Free. destruct (run_reg ops _ _ _ reg0 H) as [R _]. destruct (construct_ok s addr a b M R N) as (s1 & r1 & E1 & [(_ & _ & f & z & _ & Hz & Ha & Hb)|(-> & -> & _)]); [exfalso; exact (Free f z Hz (conj Ha Hb))|].
  eexists. cbn [FrameModel.step]. rewrite N. unfold live_cs. destruct (cs s a); [|congruence]. destruct (cs s b); [|congruence]. cbn [andb]. rewrite E1. split; [reflexivity|]. rewrite fr_set, Nat.eqb_refl. split; [reflexivity|].
  intros f Hf. rewrite fr_set. apply Nat.eqb_neq in Hf. now rewrite Hf.
Qed.
(** The homogeneous matrix of a rotation and a translation. *)
Lemma set_rt_entries (M R r : mem T) : 
  (forall m n, m < 3 -> n < 3 -> set_rt T M R r (4 * n + m) = R (3 * n + m)) /\ (forall m, m < 3 -> set_rt T M R r (4 * 3 + m) = r m) /\
  (forall n, n < 3 -> set_rt T M R r (4 * n + 3) = nofZ T 0) /\ set_rt T M R r (4 * 3 + 3) = nofZ T 1.
Proof.
  assert (K : forall m n, m < 4 -> n < 4 -> (4 * n + m) mod 4 = m /\ (4 * n + m) / 4 = n /\ (4 * n + m <? 16) = true).
  { intros m n Hm Hn. split; [|split]; [rewrite Nat.add_comm, Nat.mul_comm, Nat.mod_add by lia; now apply Nat.mod_small|rewrite Nat.add_comm, Nat.mul_comm, Nat.div_add by lia; rewrite Nat.div_small by lia; lia|apply Nat.ltb_lt; lia]. }
  unfold set_rt. repeat split; intros; (match goal with |- context [(4 * ?n + ?m) mod 4] => destruct (K m n) as (-> & -> & ->); [lia|lia|] end).
  - destruct (Nat.eqb_spec m 3); [lia|]. destruct (Nat.eqb_spec n 3); [lia|]. reflexivity.
  - destruct (Nat.eqb_spec m 3); [lia|]. reflexivity.
  - destruct (Nat.eqb_spec n 3); [lia|]. reflexivity.
Qed.

(** ** Coordinate systems *)
Record csreg (s : state) : Prop := {
  c_nodup : NoDup (map fst (cs_list s));
  c_live : forall addr id, cs s addr = Some id <-> lookup id (cs_list s) = Some (Some addr)
}.
Lemma lookup_snoc id l k p : lookup k (l ++ [(id, p)]) = match lookup k l with Some q => Some q | None => if text_eqb id k then Some p else None end.
Proof.
  unfold lookup. induction l as [|[m q] l IH]; cbn [app find fst]; [destruct (text_eqb id k); reflexivity|]. destruct (text_eqb m k); [reflexivity|exact IH].
Qed.
Lemma lookup_erase id l k : lookup k (erase id l) = if text_eqb id k then None else lookup k l.
Proof.
  unfold lookup, erase. induction l as [|[m q] l IH]; cbn [filter find fst]; [now destruct (text_eqb id k)|]. destruct (text_eqb_spec m id) as [->|Hm]; cbn [negb].
  - rewrite IH. destruct (text_eqb id k); reflexivity.
  - cbn [find fst]. destruct (text_eqb_spec m k) as [->|]; [|exact IH]. destruct (text_eqb_spec id k); [congruence|reflexivity].
Qed.
Lemma lookup_none id l : lookup id l = None <-> ~ In id (map fst l).
Proof.
  unfold lookup. induction l as [|[m q] l IH]; cbn [find fst map In]; [tauto|]. destruct (text_eqb_spec m id) as [->|]; [split; [discriminate|intros H; exfalso; apply H; now left]|]. rewrite IH. intuition.
Qed.
Lemma erase_nodup id l : NoDup (map fst l) -> NoDup (map fst (erase id l)).
Proof.
  unfold erase. induction l as [|[m q] l IH]; cbn [map filter fst]; intros H; [constructor|]. inversion H; subst. destruct (negb (text_eqb m id)); [|now apply IH]. cbn [map fst]. constructor; [|now apply IH].
  intros Hi. apply in_map_iff in Hi. destruct Hi as ([a b] & E & Hi). apply filter_In in Hi. destruct Hi as [Hi _]. cbn in E. subst. apply H2. apply in_map_iff. exists (m, b). auto.
Qed.
Lemma cs_unchanged (s s' : state) o r : step s o = Ok (s', r) -> (forall a i, o <> NewCS a i) -> (forall a, o <> DelCS a) -> (forall i, o <> GetCS i) -> cs s' = cs s /\ cs_list s' = cs_list s.
Proof.
  intros H N1 N2 N3. assert (K : forall addr a b M s' r, construct T s addr a b M = Ok (s', r) -> cs s' = cs s /\ cs_list s' = cs_list s).
  { intros addr a b M s1 r1 E. unfold construct in E. destruct (find_frame T (fr_list s) s a b) as [[p|]| |]; try discriminate; cbn [bind] in E; injection E as <- <-; auto. }
  destruct o; cbn [FrameModel.step] in H; try (exfalso; (now apply (N1 _ _ eq_refl)) || (now apply (N2 _ eq_refl)) || (now apply (N3 _ eq_refl))).
  - destruct (fr s addr); [discriminate|]. destruct (_ && _); [|discriminate]. destruct (eye_ok T 4 4 g) as (M & E & _). rewrite E in H. cbn [bind] in H. clear E. now apply K in H.
  - destruct (fr s addr); [discriminate|]. destruct (_ && _); [|discriminate]. now apply K in H.
  - destruct (fr s addr); [discriminate|]. destruct (_ && _); [|discriminate]. now apply K in H.
  - destruct (fr s addr); [discriminate|]. destruct (fr s f); [|discriminate]. injection H as <- <-. auto.
  - destruct (fr s f); [|discriminate]. injection H as <- <-. auto.
  - destruct (fr s f); [|discriminate]. injection H as <- <-. auto.
  - destruct (fr s f); [|discriminate]. injection H as <- <-. auto.
  - destruct (fr s addr); [discriminate|]. destruct (fr s f1) as [x|]; [|discriminate]. destruct (fr s f2) as [y|]; [|discriminate]. destruct (f_b x =? f_a y); [|injection H as <- <-; auto].
    destruct (mul_ok T 4 4 4 (f_T x) (f_T y) g) as (M & E & _). rewrite E in H. cbn [bind] in H. clear E. destruct (construct T s addr (f_a x) (f_b y) M) as [[s1 r1]| |] eqn:E1; try discriminate. cbn [bind] in H. apply K in E1.
    destruct r1; injection H as <- <-; destruct elided; cbn; tauto.
  - destruct (find_frame T (fr_list s) s a b); try discriminate. injection H as <- <-. auto.
  - injection H as <- <-. auto.
Qed.
Lemma step_cs (s s' : state) o r : csreg s -> step s o = Ok (s', r) -> csreg s'.
Proof.
  intros C H. assert (Other : (forall a i, o <> NewCS a i) -> (forall a, o <> DelCS a) -> (forall i, o <> GetCS i) -> csreg s').
  { intros N1 N2 N3. destruct (cs_unchanged s s' o r H N1 N2 N3) as [A B]. constructor; [rewrite B; apply C|]. intros addr id. rewrite A, B. apply C. }
  destruct o; try (apply Other; discriminate); clear Other; cbn [FrameModel.step] in H.
  - destruct (cs s addr) eqn:N; [discriminate|]. destruct (lookup id (cs_list s)) eqn:L; injection H as <- <-; [exact C|]. constructor; cbn [cs_list cs].
    + rewrite map_app. cbn. apply NoDup_snoc; [apply C|]. now apply lookup_none.
    + intros a i. rewrite lookup_snoc. unfold upd. destruct (Nat.eqb_spec a addr) as [->|Hne].
      * destruct (lookup i (cs_list s)) as [q|] eqn:Li.
        -- split; intros Q; [injection Q as <-; congruence|]. injection Q as ->. apply (c_live _ C) in Li. congruence.
        -- destruct (text_eqb_spec id i) as [->|Hi]; split; intros Q; try reflexivity; try discriminate. congruence.
      * rewrite (c_live _ C). destruct (lookup i (cs_list s)) as [q|] eqn:Li; [reflexivity|]. destruct (text_eqb_spec id i) as [->|Hi]; split; intros Q; try discriminate. congruence.
  - destruct (cs s addr) as [id|] eqn:N; [|discriminate]. injection H as <- <-. constructor; cbn [cs_list cs]; [apply erase_nodup, C|]. intros a i. rewrite lookup_erase. unfold upd.
    pose proof (proj1 (c_live _ C addr id) N) as L. destruct (Nat.eqb_spec a addr) as [->|Hne].
    + split; [discriminate|]. destruct (text_eqb_spec id i) as [->|Hi]; [discriminate|]. intros Q. apply (c_live _ C) in Q. congruence.
    + rewrite (c_live _ C). destruct (text_eqb_spec id i) as [->|Hi]; [|reflexivity]. split; intros Q; congruence.
  - destruct (lookup id (cs_list s)) eqn:L; injection H as <- <-; [exact C|]. constructor; cbn [cs_list cs].
    + rewrite map_app. cbn. apply NoDup_snoc; [apply C|]. now apply lookup_none.
    + intros a i. rewrite lookup_snoc, (c_live _ C). destruct (lookup i (cs_list s)) as [q|]; [reflexivity|]. destruct (text_eqb id i); split; discriminate.
Qed.
Lemma cs0 : csreg (state0 T).
Proof. constructor; cbn; [constructor|]. intros; split; discriminate. Qed.
Lemma run_cs ops : forall s s' rs, csreg s -> run s ops = Ok (s', rs) -> csreg s'.
Proof.
  induction ops as [|o ops IH]; intros s s' rs R H; cbn [FrameModel.run] in H; [injection H as <- <-; tauto|].
  destruct (step s o) as [[s1 r]| |] eqn:E; try discriminate. cbn [bind] in H. destruct (run s1 ops) as [[s2 rs2]| |] eqn:E2; try discriminate. injection H as <- <-.
  apply (IH s1 s2 rs2); [now apply (step_cs s s1 o r)|exact E2].
Qed.
(** Once an unknown id was looked up it can never be used for a coordinate system. *)
Lemma null_stays (s s' : state) o r id : csreg s -> lookup id (cs_list s) = Some None -> step s o = Ok (s', r) -> lookup id (cs_list s') = Some None.
Proof.
  intros C L H. assert (Other : (forall a i, o <> NewCS a i) -> (forall a, o <> DelCS a) -> (forall i, o <> GetCS i) -> lookup id (cs_list s') = Some None).
  { intros N1 N2 N3. destruct (cs_unchanged s s' o r H N1 N2 N3) as [A B]. now rewrite B. }
  destruct o; try (apply Other; discriminate); clear Other; cbn [FrameModel.step] in H.
  - destruct (cs s addr); [discriminate|]. destruct (lookup id0 (cs_list s)); injection H as <- <-; [exact L|]. cbn. now rewrite lookup_snoc, L.
  - destruct (cs s addr) as [i|] eqn:N; [|discriminate]. injection H as <- <-. cbn. rewrite lookup_erase. destruct (text_eqb_spec i id) as [->|]; [|exact L]. apply (c_live _ C) in N. congruence.
  - destruct (lookup id0 (cs_list s)); injection H as <- <-; [exact L|]. cbn. now rewrite lookup_snoc, L.
Qed.
Lemma null_forever ops : forall s s' rs id, csreg s -> lookup id (cs_list s) = Some None -> run s ops = Ok (s', rs) -> lookup id (cs_list s') = Some None.
Proof.
  induction ops as [|o ops IH]; intros s s' rs id R L H; cbn [FrameModel.run] in H; [injection H as <- <-; tauto|].
  destruct (step s o) as [[s1 r]| |] eqn:E; try discriminate. cbn [bind] in H. destruct (run s1 ops) as [[s2 rs2]| |] eqn:E2; try discriminate. injection H as <- <-.
  apply (IH s1 s2 rs2); [now apply (step_cs s s1 o r)|now apply (null_stays s s1 o r)|exact E2].
Qed.
Lemma id_lost ops s rs id s1 ops2 s2 rs2 addr : run (state0 T) ops = Ok (s, rs) -> (forall a, cs s a <> Some id) -> step s (GetCS id) = Ok (s1, Ptr None) -> run s1 ops2 = Ok (s2, rs2) -> cs s2 addr = None ->
  step s2 (NewCS addr id) = Ok (s2, Thrown).
Proof.
  intros H Un G H2 N. pose proof (run_cs ops _ _ _ cs0 H) as C. assert (L : lookup id (cs_list s1) = Some None).
  { cbn [FrameModel.step] in G. destruct (lookup id (cs_list s)) as [p|] eqn:L; injection G as <-; [congruence|]. cbn. rewrite lookup_snoc, L. destruct (text_eqb_spec id id); congruence. }
  assert (C1 : csreg s1) by now apply (step_cs s s1 (GetCS id) (Ptr None)).
  pose proof (null_forever ops2 s1 s2 rs2 id C1 L H2) as L2. cbn [FrameModel.step]. now rewrite N, L2.
Qed.
(** A lookup answers with the live coordinate system of that id. *)
Lemma get_cs ops s rs id : run (state0 T) ops = Ok (s, rs) -> exists s' p, step s (GetCS id) = Ok (s', Ptr p) /\ (forall a, p = Some a <-> cs s a = Some id) /\ cs s' = cs s /\ fr s' = fr s /\ fr_list s' = fr_list s /\ (p <> None -> s' = s).
Proof.
  intros H. pose proof (run_cs ops _ _ _ cs0 H) as C. cbn [FrameModel.step]. destruct (lookup id (cs_list s)) as [p|] eqn:L.
  - exists s, p. repeat split; auto; intros Q; [apply (c_live _ C); congruence|apply (c_live _ C) in Q; congruence].
  - eexists _, None. split; [reflexivity|]. cbn. repeat split; auto; try discriminate; try congruence. intros Q. apply (c_live _ C) in Q. congruence.
Qed.
(** Apart from the construction of that id nothing is affected by a lookup. *)
Record sim (id : text) (s s' : state) : Prop := {
  m_cs : cs s' = cs s; m_fr : fr s' = fr s; m_list : fr_list s' = fr_list s;
  m_look : forall k, k <> id -> lookup k (cs_list s') = lookup k (cs_list s);
  m_id : lookup id (cs_list s') = Some None;
  m_id0 : lookup id (cs_list s) = None \/ lookup id (cs_list s) = Some None;
  m_reg : csreg s
}.
Lemma find_same (s s' : state) l a b : fr s' = fr s -> find_frame T l s' a b = find_frame T l s a b.
Proof. intros E. induction l as [|f l IH]; [reflexivity|]. cbn [find_frame]. rewrite E, IH. reflexivity. Qed.
Lemma construct_sim id (s s' : state) addr a b M : sim id s s' -> match construct T s addr a b M, construct T s' addr a b M with
  | Ok (s1, r), Ok (s1', r') => r = r' /\ sim id s1 s1' | UB, UB => True | Fault, Fault => True | _, _ => False end.
Proof.
  intros S. unfold construct. rewrite (m_list _ _ _ S), (find_same s s' _ _ _ (m_fr _ _ _ S)). destruct (find_frame T (fr_list s) s a b) as [[p|]| |]; cbn [bind]; auto. split; [reflexivity|].
  destruct S as [Sc Sf Sl Sk Si S0 SC]. constructor; cbn; try assumption; try reflexivity; try now rewrite Sf. constructor; cbn; apply SC.
Qed.
Lemma step_sim id (s s' : state) o : sim id s s' -> (forall a, o <> NewCS a id) ->
  match step s o, step s' o with Ok (s1, r), Ok (s1', r') => r = r' /\ sim id s1 s1' | UB, UB => True | Fault, Fault => True | _, _ => False end.
Proof.
  intros S N. destruct S as [Sc Sf Sl Sk Si S0 SC]. assert (S : sim id s s') by (constructor; assumption).
  destruct o; cbn [FrameModel.step]; unfold live_cs; rewrite ?Sc, ?Sf, ?Sl.
  - destruct (cs s addr) eqn:A; [exact I|]. rewrite (Sk id0) by (intros ->; now apply (N addr)). destruct (lookup id0 (cs_list s)) eqn:L; [auto|]. split; [reflexivity|].
    assert (id0 <> id) by (intros ->; now apply (N addr)).
    constructor; cbn; try assumption; try reflexivity; try now rewrite Sc.
    + intros k Hk. rewrite !lookup_snoc, Sk by exact Hk. reflexivity.
    + now rewrite lookup_snoc, Si.
    + rewrite lookup_snoc. destruct (text_eqb_spec id0 id); [congruence|]. destruct S0 as [-> | ->]; auto.
    + apply (step_cs s _ (NewCS addr id0) Done SC). cbn [FrameModel.step]. now rewrite A, L.
  - destruct (cs s addr) as [i|] eqn:A; [|exact I]. split; [reflexivity|]. assert (i <> id) by (intros ->; apply (c_live _ SC) in A; destruct S0; congruence).
    constructor; cbn; try assumption; try reflexivity; try now rewrite Sc.
    + intros k Hk. rewrite !lookup_erase, Sk by exact Hk. reflexivity.
    + rewrite lookup_erase. destruct (text_eqb_spec i id); [congruence|exact Si].
    + rewrite lookup_erase. destruct (text_eqb_spec i id); [congruence|exact S0].
    + apply (step_cs s _ (DelCS addr) Done SC). cbn [FrameModel.step]. now rewrite A.
  - assert (D : id0 = id \/ id0 <> id) by (destruct (text_eqb_spec id0 id); auto). destruct D as [->|D].
    + rewrite Si. destruct S0 as [L|L]; rewrite L; (split; [reflexivity|]); [|exact S]. constructor; cbn; try assumption; try reflexivity.
      * intros k Hk. rewrite lookup_snoc, Sk by exact Hk. destruct (text_eqb_spec id k); [congruence|]. destruct (lookup k (cs_list s)); reflexivity.
      * right. rewrite lookup_snoc, L. destruct (text_eqb_spec id id); [reflexivity|congruence].
      * apply (step_cs s _ (GetCS id) (Ptr None) SC). cbn [FrameModel.step]. now rewrite L.
    + rewrite (Sk id0 D). destruct (lookup id0 (cs_list s)) eqn:L; [auto|]. split; [reflexivity|]. constructor; cbn; try assumption; try reflexivity.
      * intros k Hk. rewrite !lookup_snoc, Sk by exact Hk. reflexivity.
      * now rewrite lookup_snoc, Si.
      * rewrite lookup_snoc. destruct (text_eqb_spec id0 id); [congruence|]. destruct S0 as [-> | ->]; auto.
      * apply (step_cs s _ (GetCS id0) (Ptr None) SC). cbn [FrameModel.step]. now rewrite L.
  - destruct (fr s addr); [exact I|]. destruct (_ && _); [|exact I]. destruct (eye_ok T 4 4 g) as (M & E & _). rewrite E. cbn [bind]. now apply construct_sim.
  - destruct (fr s addr); [exact I|]. destruct (_ && _); [|exact I]. now apply construct_sim.
  - destruct (fr s addr); [exact I|]. destruct (_ && _); [|exact I]. now apply construct_sim.
  - destruct (fr s addr); [exact I|]. destruct (fr s f); [|exact I]. split; [reflexivity|]. constructor; cbn; try assumption; try reflexivity; [now rewrite Sf|constructor; apply SC].
  - destruct (fr s f); [|exact I]. split; [reflexivity|]. constructor; cbn; try assumption; try reflexivity; [now rewrite Sf|constructor; apply SC].
  - destruct (fr s f); [|exact I]. split; [reflexivity|]. constructor; cbn; try assumption; try reflexivity; [now rewrite Sf|constructor; apply SC].
  - destruct (fr s f); [|exact I]. split; [reflexivity|]. constructor; cbn; try assumption; try reflexivity; [now rewrite Sf|constructor; apply SC].
  - destruct (fr s addr); [exact I|]. destruct (fr s f1) as [x|]; [|exact I]. destruct (fr s f2) as [y|]; [|exact I]. destruct (f_b x =? f_a y); [|auto].
    destruct (mul_ok T 4 4 4 (f_T x) (f_T y) g) as (M & E & _). rewrite E. cbn [bind]. pose proof (construct_sim id s s' addr (f_a x) (f_b y) M S) as K.
    destruct (construct T s addr (f_a x) (f_b y) M) as [[s1 r1]| |], (construct T s' addr (f_a x) (f_b y) M) as [[s2 r2]| |]; try contradiction; try exact I. cbn [bind]. destruct K as [<- K].
    destruct r1; (split; [reflexivity|]); try exact S; destruct elided; try exact K; destruct K; constructor; cbn; try assumption; try reflexivity; constructor; apply m_reg0.
  - rewrite (find_same s s' _ _ _ Sf). destruct (find_frame T (fr_list s) s a b); cbn [bind]; auto.
  - auto.
Qed.
Lemma run_sim id ops : forall s s', sim id s s' -> (forall a, ~ In (NewCS a id) ops) ->
  match run s ops, run s' ops with Ok (_, rs), Ok (_, rs') => rs = rs' | UB, UB => True | Fault, Fault => True | _, _ => False end.
Proof.
  induction ops as [|o ops IH]; intros s s' S N; [reflexivity|]. cbn [FrameModel.run].
  assert (No : forall a, o <> NewCS a id) by (intros a ->; apply (N a); now left).
  pose proof (step_sim id s s' o S No) as K. destruct (step s o) as [[s1 r]| |], (step s' o) as [[s1' r']| |]; try contradiction; try exact I. destruct K as [<- K]. cbn [bind].
  assert (N' : forall a, ~ In (NewCS a id) ops) by (intros a Ha; apply (N a); now right).
  specialize (IH s1 s1' K N'). destruct (run s1 ops) as [[s2 rs]| |], (run s1' ops) as [[s2' rs']| |]; try contradiction; try exact I. cbn [bind]. now rewrite IH.
Qed.
Lemma lookup_harmless ops s rs id s1 r : run (state0 T) ops = Ok (s, rs) -> step s (GetCS id) = Ok (s1, r) ->
  forall ops2, (forall a, ~ In (NewCS a id) ops2) -> match run s ops2, run s1 ops2 with Ok (_, rs), Ok (_, rs') => rs = rs' | UB, UB => True | Fault, Fault => True | _, _ => False end.
Proof.
  intros H G ops2 N. pose proof (run_cs ops _ _ _ cs0 H) as C. cbn [FrameModel.step] in G. destruct (lookup id (cs_list s)) as [p|] eqn:L; injection G as <- <-.
  - destruct (run s ops2) as [[? ?]| |]; auto.
  - apply (run_sim id); [|exact N]. constructor; cbn; try reflexivity; auto.
    + intros k Hk. rewrite lookup_snoc. destruct (text_eqb_spec id k); [congruence|]. destruct (lookup k (cs_list s)); reflexivity.
    + rewrite lookup_snoc, L. destruct (text_eqb_spec id id); congruence.
Qed.
(** A history whose calls use live objects and free addresses has defined behaviour. *)
Lemma legal_defined ops s rs o : run (state0 T) ops = Ok (s, rs) -> legal T s o -> exists s' r, step s o = Ok (s', r).
Proof.
  intros H L. destruct (run_reg ops _ _ _ reg0 H) as [R _]. clear H.
  assert (K : forall addr a b M, fr s addr = None -> exists s' r, construct T s addr a b M = Ok (s', r)).
  { intros addr a b M N. destruct (construct_ok s addr a b M R N) as (s' & r & E & _). exists s', r. exact E. }
  destruct o; cbn [FrameModel.step legal] in *; unfold live_cs.
  - rewrite L. destruct (lookup id (cs_list s)); eexists _, _; reflexivity.
  - destruct (cs s addr); [eexists _, _; reflexivity|congruence].
  - destruct (lookup id (cs_list s)); eexists _, _; reflexivity.
  - destruct L as (L & La & Lb). rewrite L. destruct (cs s a); [|congruence]. destruct (cs s b); [|congruence]. cbn [andb]. destruct (eye_ok T 4 4 g) as (M & E & _). rewrite E. cbn [bind]. clear E. apply K. exact L.
  - destruct L as (L & La & Lb). rewrite L. destruct (cs s a); [|congruence]. destruct (cs s b); [|congruence]. apply K. exact L.
  - destruct L as (L & La & Lb). rewrite L. destruct (cs s a); [|congruence]. destruct (cs s b); [|congruence]. apply K. exact L.
  - destruct L as (L & La). rewrite L. destruct (fr s f); [eexists _, _; reflexivity|congruence].
  - destruct (fr s f); [eexists _, _; reflexivity|congruence].
  - destruct (fr s f); [eexists _, _; reflexivity|congruence].
  - destruct (fr s f); [eexists _, _; reflexivity|congruence].
  - destruct L as (L & La & Lb). rewrite L. destruct (fr s f1) as [x|]; [|congruence]. destruct (fr s f2) as [y|]; [|congruence]. destruct (f_b x =? f_a y); [|eexists _, _; reflexivity].
    destruct (mul_ok T 4 4 4 (f_T x) (f_T y) g) as (M & E & _). rewrite E. cbn [bind]. clear E. destruct (K addr (f_a x) (f_b y) M L) as (s1 & r1 & E1). rewrite E1. cbn [bind]. destruct r1; eexists _, _; reflexivity.
  - destruct (find_ok (fr_list s) s a b (r_live _ R)) as (p & E & _). rewrite E. eexists _, _. reflexivity.
  - eexists _, _. reflexivity.
Qed.
(** Without elision the returned frame is not in the list. *)
Lemma product_copied (s : state) addr f1 f2 x y g : reg s -> fr s addr = None -> fr s f1 = Some x -> fr s f2 = Some y -> f_b x = f_a y ->
  (forall f z, fr s f = Some z -> ~ (f_a z = f_a x /\ f_b z = f_b y)) ->
  exists s' M, run s [Mul addr f1 f2 false g; GetFrame (f_a x) (f_b y)] = Ok (s', [Done; Ptr None]) /\ fr s' addr = Some {| f_a := f_a x; f_b := f_b y; f_T := M |}.
Proof.
  intros R N X Y B Free. destruct (mul_ok T 4 4 4 (f_T x) (f_T y) g) as (M & E & _).
  destruct (construct_ok s addr (f_a x) (f_b y) M R N) as (s1 & r1 & E1 & [(_ & _ & f & z & _ & Hz & Ha & Hb)|(-> & -> & _)]); [exfalso; exact (Free f z Hz (conj Ha Hb))|].
  set (s1 := set_fr T s addr (Some {| f_a := f_a x; f_b := f_b y; f_T := M |}) (fr_list s ++ [addr])) in *.
  set (s2 := {| cs := cs s1; cs_list := cs_list s1; fr := fr s1; fr_list := fr_list s |}).
  assert (S : step s (Mul addr f1 f2 false g) = Ok (s2, Done)). { cbn [FrameModel.step]. rewrite N, X, Y, B, Nat.eqb_refl, E. cbn [bind]. rewrite E1. reflexivity. }
  destruct (step_reg s s2 _ _ R S) as [R2 _]. destruct (find_ok (fr_list s2) s2 (f_a x) (f_b y) (r_live _ R2)) as (p & Ep & Hp).
  exists s2, M. cbn [FrameModel.run]. rewrite S. cbn [bind]. assert (Q : step s2 (GetFrame (f_a x) (f_b y)) = Ok (s2, Ptr None)).
  { cbn [FrameModel.step]. rewrite Ep. cbn [bind]. destruct p as [f|]; [|reflexivity]. exfalso. destruct Hp as [Hi (u & Hu & Ha & Hb)]. cbn [s2 fr_list] in Hi. cbn [s2 fr] in Hu. unfold s1 in Hu. rewrite fr_set in Hu.
    destruct (Nat.eqb_spec f addr) as [W|W]; [subst f; exact (r_live _ R addr Hi N)|exact (Free f u Hu (conj Ha Hb))]. }
  rewrite Q. cbn [bind]. split; [reflexivity|]. cbn [s2 fr]. unfold s1. rewrite fr_set, Nat.eqb_refl. reflexivity.
Qed.
(** Two ways to compose three frames. *)
Lemma compose3 ops s rs p q f1 f2 f3 x y z g : run (state0 T) ops = Ok (s, rs) -> fr s p = None -> fr s q = None -> p <> q ->
  fr s f1 = Some x -> fr s f2 = Some y -> fr s f3 = Some z -> f_b x = f_a y -> f_b y = f_a z -> f_a x <> f_b x -> f_b y <> f_b z ->
  (forall f u, fr s f = Some u -> ~ (f_a u = f_a x /\ f_b u = f_b y) /\ ~ (f_a u = f_a y /\ f_b u = f_b z) /\ ~ (f_a u = f_a x /\ f_b u = f_b z)) ->
  exists sl sr rl rr xy yz l r, run s [Mul p f1 f2 true g; Mul q p f3 true g] = Ok (sl, rl) /\ run s [Mul p f2 f3 true g; Mul q f1 p true g] = Ok (sr, rr) /\
    fr sl q = Some {| f_a := f_a x; f_b := f_b z; f_T := l |} /\ fr sr q = Some {| f_a := f_a x; f_b := f_b z; f_T := r |} /\
    m_mul T 4 4 4 (f_T x) (f_T y) g = Ok xy /\ m_mul T 4 4 4 (f_T y) (f_T z) g = Ok yz /\ m_mul T 4 4 4 xy (f_T z) g = Ok l /\ m_mul T 4 4 4 (f_T x) yz g = Ok r.
Proof.
  intros H Np Nq Npq X Y Z B1 B2 D1 D2 Free. destruct (run_reg ops _ _ _ reg0 H) as [R _]. clear H.
  assert (P3 : p <> f3) by congruence. assert (P1 : p <> f1) by congruence.
  destruct (product_reg s p f1 f2 x y g R Np X Y B1 (fun f u E => proj1 (Free f u E))) as (s1 & xy & E1 & Exy & F1 & O1 & _).
  destruct (product_reg s p f2 f3 y z g R Np Y Z B2 (fun f u E => proj1 (proj2 (Free f u E)))) as (s2 & yz & E2 & Eyz & F2 & O2 & _).
  pose proof (proj1 (step_reg _ _ _ _ R E1)) as R1. pose proof (proj1 (step_reg _ _ _ _ R E2)) as R2.
  set (fxy := {| f_a := f_a x; f_b := f_b y; f_T := xy |}) in *. set (fyz := {| f_a := f_a y; f_b := f_b z; f_T := yz |}) in *.
  assert (Fr1 : forall f u, fr s1 f = Some u -> ~ (f_a u = f_a fxy /\ f_b u = f_b z)).
  { intros f u E. destruct (Nat.eq_dec f p) as [Q|Q]; [subst f; rewrite F1 in E; injection E as <-; unfold fxy; cbn [f_a f_b]; intros [_ W]; exact (D2 W)|rewrite (O1 f Q) in E; exact (proj2 (proj2 (Free f u E)))]. }
  assert (Fr2 : forall f u, fr s2 f = Some u -> ~ (f_a u = f_a x /\ f_b u = f_b fyz)).
  { intros f u E. destruct (Nat.eq_dec f p) as [Q|Q]; [subst f; rewrite F2 in E; injection E as <-; unfold fyz; cbn [f_a f_b]; intros [W _]; apply D1; rewrite B1; symmetry; exact W|rewrite (O2 f Q) in E; exact (proj2 (proj2 (Free f u E)))]. }
  assert (N1 : fr s1 q = None) by (rewrite O1 by (intros W; apply Npq; symmetry; exact W); exact Nq). assert (N2 : fr s2 q = None) by (rewrite O2 by (intros W; apply Npq; symmetry; exact W); exact Nq).
  assert (Z1 : fr s1 f3 = Some z) by (rewrite O1 by (intros W; apply P3; symmetry; exact W); exact Z). assert (X2 : fr s2 f1 = Some x) by (rewrite O2 by (intros W; apply P1; symmetry; exact W); exact X).
  destruct (product_reg s1 q p f3 fxy z g R1 N1 F1 Z1 B2 Fr1) as (sl & l & El & Ml & Fl & _).
  destruct (product_reg s2 q f1 p x fyz g R2 N2 X2 F2 B1 Fr2) as (sr & r & Er & Mr & Frr & _).
  exists sl, sr, [Done; Done], [Done; Done], xy, yz, l, r. cbn [FrameModel.run]. rewrite E1, E2. cbn [bind]. rewrite El, Er. cbn [bind].
  split; [reflexivity|]. split; [reflexivity|]. split; [exact Fl|]. split; [exact Frr|]. split; [exact Exy|]. split; [exact Eyz|]. split; [exact Ml|exact Mr].
Qed.
End Frame.
(** ** Witnesses *)
Definition idA : text := list_ascii_of_string "a". Definition idB : text := list_ascii_of_string "b". Definition idC : text := list_ascii_of_string "c".
Definition two_systems (T : num) : list (op T) := [NewCS 1 idA; NewCS 2 idB; NewCS 3 idC].
Lemma copy_duplicates (T : num) (M : mem T) : exists s, run T (state0 T) (two_systems T ++ [NewFrameT 11 1 2 M; CopyFrame 12 11]) = Ok (s, [Done; Done; Done; Done; Done]) /\
  fr s 11 = Some {| f_a := 1; f_b := 2; f_T := M |} /\ fr s 12 = Some {| f_a := 1; f_b := 2; f_T := M |}.
Proof. eexists. split; [reflexivity|]. split; reflexivity. Qed.
Lemma copy_deleted (T : num) (M : mem T) : exists s, run T (state0 T) (two_systems T ++ [NewFrameT 11 1 2 M; CopyFrame 12 11; DelFrame 11; GetFrame 1 2; NewFrameT 11 1 2 M]) =
  Ok (s, [Done; Done; Done; Done; Done; Done; Ptr None; Done]) /\ fr s 12 = Some {| f_a := 1; f_b := 2; f_T := M |} /\ fr s 11 = Some {| f_a := 1; f_b := 2; f_T := M |}.
Proof. eexists. split; [reflexivity|]. split; reflexivity. Qed.
Lemma lookup_blocks (T : num) : exists s, run T (state0 T) [GetCS idA; NewCS 1 idA] = Ok (s, [Ptr None; Thrown]).
Proof. eexists. reflexivity. Qed.
Lemma no_lookup (T : num) : exists s, run T (state0 T) [NewCS 1 idA] = Ok (s, [Done]).
Proof. eexists. reflexivity. Qed.
(** A frame outlives its coordinate system and then belongs to a different one. *)
Lemma dangling (T : num) (M : mem T) : exists s, run T (state0 T) [NewCS 1 idA; NewCS 2 idB; NewFrameT 11 1 2 M; DelCS 2; NewCS 2 idC; GetCS idC; GetFrame 1 2] =
  Ok (s, [Done; Done; Done; Done; Done; Ptr (Some 2); Ptr (Some 11)]).
Proof. eexists. reflexivity. Qed.
Lemma run_app (T : num) ops1 : forall ops2 s s1 rs1 s2 rs2, run T s ops1 = Ok (s1, rs1) -> run T s1 ops2 = Ok (s2, rs2) -> run T s (ops1 ++ ops2) = Ok (s2, (rs1 ++ rs2)%list).
Proof.
  induction ops1 as [|o ops1 IH]; intros ops2 s s1 rs1 s2 rs2 H1 H2; cbn [run app] in *; [injection H1 as <- <-; exact H2|].
  destruct (step T s o) as [[sa r]| |]; try discriminate. cbn [bind] in *. destruct (run T sa ops1) as [[sb rb]| |] eqn:E; try discriminate. injection H1 as <- <-. rewrite (IH ops2 sa sb rb s2 rs2 E H2). reflexivity.
Qed.
Lemma product_lost (T : num) (M : mem T) : exists s N, run T (state0 T) (two_systems T ++ [NewFrameT 11 1 2 M; NewFrameT 12 2 3 M] ++ [Mul 13 11 12 false M; GetFrame 1 3]) =
  Ok (s, [Done; Done; Done; Done; Done; Done; Ptr None]) /\ fr s 13 = Some {| f_a := 1; f_b := 3; f_T := N |}.
Proof.
  set (x := {| f_a := 1; f_b := 2; f_T := M |}). set (y := {| f_a := 2; f_b := 3; f_T := M |}).
  assert (E : exists s0, run T (state0 T) (two_systems T ++ [NewFrameT 11 1 2 M; NewFrameT 12 2 3 M]) = Ok (s0, [Done; Done; Done; Done; Done]) /\ fr s0 13 = None /\ fr s0 11 = Some x /\ fr s0 12 = Some y /\
     forall f z, fr s0 f = Some z -> ~ (f_a z = 1 /\ f_b z = 3)).
  { eexists. split; [reflexivity|]. split; [reflexivity|]. split; [reflexivity|]. split; [reflexivity|]. intros f z. cbn [fr set_fr state0]. unfold upd. destruct (f =? 12); [intros Q; injection Q as <-; cbn; intros [? ?]; discriminate|].
    destruct (f =? 11); [intros Q; injection Q as <-; cbn; intros [? ?]; discriminate|discriminate]. }
  destruct E as (s0 & E & N & X & Y & Free). destruct (run_reg T _ _ _ _ (reg0 T) E) as [R _].
  destruct (product_copied T s0 13 11 12 x y M R N X Y eq_refl Free) as (s' & M' & E' & F'). exists s', M'. split; [|exact F']. rewrite app_assoc. exact (run_app T _ _ _ _ _ _ _ E E').
Qed.
Lemma outlived : exists id id' (ops : forall T : num, mem T -> list (op T)), id <> id' /\ forall (T : num) (M : mem T), 
  (exists s rs, run T (state0 T) (firstn 3 (ops T M)) = Ok (s, rs) /\ cs s 2 = Some id /\ fr s 11 = Some {| f_a := 1; f_b := 2; f_T := M |}) /\
  exists s rs, run T (state0 T) (ops T M) = Ok (s, rs) /\ cs s 2 = Some id' /\ last rs Done = Ptr (Some 11).
Proof.
  exists idB, idC, (fun T M => [NewCS 1 idA; NewCS 2 idB; NewFrameT 11 1 2 M; DelCS 2; NewCS 2 idC; GetFrame 1 2]). split; [discriminate|]. intros T M. split.
  - eexists _, _. split; [reflexivity|]. split; reflexivity.
  - eexists _, _. split; [reflexivity|]. split; reflexivity.
Qed.
Lemma step_keep (T : num) s o s' r f x : step T s o = Ok (s', r) -> fr s f = Some x -> o <> DelFrame f -> o <> DelCS (f_a x) -> o <> DelCS (f_b x) -> cs s (f_a x) <> None -> cs s (f_b x) <> None ->
  exists M, fr s' f = Some {| f_a := f_a x; f_b := f_b x; f_T := M |} /\ cs s' (f_a x) = cs s (f_a x) /\ cs s' (f_b x) = cs s (f_b x).
Proof.
  intros H F N1 N2 N3 Ca Cb. assert (F0 : fr s f = Some {| f_a := f_a x; f_b := f_b x; f_T := f_T x |}) by (rewrite F; destruct x; reflexivity).
  assert (K : forall addr a b M s1 r1, fr s addr = None -> construct T s addr a b M = Ok (s1, r1) -> fr s1 f = Some {| f_a := f_a x; f_b := f_b x; f_T := f_T x |}).
  { intros addr a b M s1 r1 N E. unfold construct in E. destruct (find_frame T (fr_list s) s a b) as [[p|]| |]; try discriminate; cbn [bind] in E; injection E as <- <-; [exact F0|].
    rewrite fr_set. destruct (Nat.eqb_spec f addr) as [Q|Q]; [subst f; congruence|exact F0]. }
  assert (Other : (forall a i, o <> NewCS a i) -> (forall a, o <> DelCS a) -> (forall i, o <> GetCS i) -> (exists M, fr s' f = Some {| f_a := f_a x; f_b := f_b x; f_T := M |}) ->
     exists M, fr s' f = Some {| f_a := f_a x; f_b := f_b x; f_T := M |} /\ cs s' (f_a x) = cs s (f_a x) /\ cs s' (f_b x) = cs s (f_b x)).
  { intros A B C (M & E). destruct (cs_unchanged T s s' o r H A B C) as [Q _]. exists M. rewrite Q. auto. }
  destruct o; try (apply Other; [discriminate|discriminate|discriminate|]); clear Other; cbn [step] in H.
  - exists (f_T x). destruct (cs s addr) eqn:A; [discriminate|]. destruct (lookup id (cs_list s)); injection H as <- <-; [auto|]. cbn. unfold upd. split; [exact F0|].
    split; [destruct (Nat.eqb_spec (f_a x) addr)|destruct (Nat.eqb_spec (f_b x) addr)]; congruence.
  - exists (f_T x). destruct (cs s addr) eqn:A; [|discriminate]. injection H as <- <-. cbn. unfold upd. split; [exact F0|].
    split; [destruct (Nat.eqb_spec (f_a x) addr)|destruct (Nat.eqb_spec (f_b x) addr)]; congruence.
  - exists (f_T x). destruct (lookup id (cs_list s)); injection H as <- <-; auto.
  - destruct (fr s addr) eqn:N; [discriminate|]. destruct (_ && _); [|discriminate]. destruct (eye_ok T 4 4 g) as (M & E & _). rewrite E in H. cbn [bind] in H. clear E. exists (f_T x). exact (K _ _ _ _ _ _ N H).
  - destruct (fr s addr) eqn:N; [discriminate|]. destruct (_ && _); [|discriminate]. exists (f_T x). exact (K _ _ _ _ _ _ N H).
  - destruct (fr s addr) eqn:N; [discriminate|]. destruct (_ && _); [|discriminate]. exists (f_T x). exact (K _ _ _ _ _ _ N H).
  - destruct (fr s addr) eqn:N; [discriminate|]. destruct (fr s f0); [|discriminate]. injection H as <- <-. exists (f_T x). rewrite fr_set. destruct (Nat.eqb_spec f addr) as [Q|]; [subst f; congruence|exact F0].
  - destruct (fr s f0); [|discriminate]. injection H as <- <-. exists (f_T x). rewrite fr_set. destruct (Nat.eqb_spec f f0) as [Q|]; [subst f0; congruence|exact F0].
  - destruct (fr s f0) as [y|] eqn:Y; [|discriminate]. injection H as <- <-. rewrite fr_set. destruct (Nat.eqb_spec f f0) as [Q|]; [|exists (f_T x); exact F0]. subst f0. assert (y = x) by congruence. subst y. eexists. reflexivity.
  - destruct (fr s f0) as [y|] eqn:Y; [|discriminate]. injection H as <- <-. rewrite fr_set. destruct (Nat.eqb_spec f f0) as [Q|]; [|exists (f_T x); exact F0]. subst f0. assert (y = x) by congruence. subst y. eexists. reflexivity.
  - destruct (fr s addr) eqn:N; [discriminate|]. destruct (fr s f1) as [u|]; [|discriminate]. destruct (fr s f2) as [v|]; [|discriminate]. exists (f_T x). destruct (f_b u =? f_a v); [|injection H as <- <-; exact F0].
    destruct (mul_ok T 4 4 4 (f_T u) (f_T v) g) as (M & E & _). rewrite E in H. cbn [bind] in H. clear E. destruct (construct T s addr (f_a u) (f_b v) M) as [[s1 r1]| |] eqn:E1; try discriminate. cbn [bind] in H. pose proof (K _ _ _ _ _ _ N E1) as K1.
    destruct r1; injection H as <- <-; destruct elided; assumption.
  - destruct (find_frame T (fr_list s) s a b); try discriminate. injection H as <- <-. exists (f_T x). exact F0.
  - injection H as <- <-. exists (f_T x). exact F0.
Qed.
Lemma frame_kept (T : num) ops : forall s s' rs f x, run T s ops = Ok (s', rs) -> fr s f = Some x -> ~ In (DelFrame f) ops -> ~ In (DelCS (f_a x)) ops -> ~ In (DelCS (f_b x)) ops ->
  cs s (f_a x) <> None -> cs s (f_b x) <> None ->
  exists M, fr s' f = Some {| f_a := f_a x; f_b := f_b x; f_T := M |} /\ cs s' (f_a x) = cs s (f_a x) /\ cs s' (f_b x) = cs s (f_b x).
Proof.
  induction ops as [|o ops IH]; intros s s' rs f x H F D1 D2 D3 Ca Cb; cbn [run] in H; [injection H as <- <-; exists (f_T x); rewrite F; destruct x; auto|].
  destruct (step T s o) as [[s1 r]| |] eqn:E; try discriminate. cbn [bind] in H. destruct (run T s1 ops) as [[s2 rs2]| |] eqn:E2; try discriminate. injection H as <- <-.
  destruct (step_keep T s o s1 r f x E F) as (M & F1 & A & B); try assumption; try (intros ->; (apply D1 + apply D2 + apply D3); now left).
  destruct (IH s1 s2 rs2 f _ E2 F1) as (M' & F2 & A2 & B2); cbn [f_a f_b] in *; try (intros Q; (apply D1 + apply D2 + apply D3); now right); try congruence.
  exists M'. rewrite A2, B2. auto.
Qed.
Lemma lookup_matters : exists id, forall (T : num), (exists s, run T (state0 T) [NewCS 1 id] = Ok (s, [Done])) /\ exists s, run T (state0 T) [GetCS id; NewCS 1 id] = Ok (s, [Ptr None; Thrown]).
Proof. exists idA. intros T. exact (conj (no_lookup T) (lookup_blocks T)). Qed.
