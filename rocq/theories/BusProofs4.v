(** Proofs: a whole cycle of sending and receiving. *)
From Coq Require Import List.
From Verif Require Import Prelude Num BusModel BusSpec BusProofs.
Import ListNotations.
Open Scope Z_scope.

Lemma find_node_some nodes x k : find_node nodes x = Some k -> nth_error nodes k = Some x.
Proof.
  revert k. induction nodes as [|y l IH]; intros k; cbn [find_node]; [discriminate|].
  destruct (Z.eqb_spec y x) as [->|].
  - intros [= <-]. reflexivity.
  - destruct (find_node l x) as [k0|]; cbn [option_map]; [|discriminate]. intros [= <-]. cbn. apply IH. reflexivity.
Qed.
Lemma find_node_none nodes x : find_node nodes x = None -> ~ In x nodes.
Proof.
  induction nodes as [|y l IH]; cbn [find_node]; [auto|]. destruct (Z.eqb_spec y x) as [->|]; [discriminate|].
  destruct (find_node l x); cbn [option_map]; [discriminate|]. intros _ [H|H]; [congruence|]. now apply IH.
Qed.
Lemma find_node_nodup nodes x k : NoDup nodes -> nth_error nodes k = Some x -> find_node nodes x = Some k.
Proof.
  revert k. induction nodes as [|y l IH]; intros k N E; [destruct k; discriminate|]. inversion N as [|? ? Ny Nl]; subst.
  cbn [find_node]. destruct k as [|k]; cbn in E.
  - injection E as <-. rewrite Z.eqb_refl. reflexivity.
  - destruct (Z.eqb_spec y x) as [->|]; [exfalso; apply Ny; eapply nth_error_In; eauto|]. rewrite (IH k Nl E). reflexivity.
Qed.

Definition mkpdo (nodes : list Z) (q : request) : list pdo :=
  match find_node nodes (q_id q) with
  | None => []
  | Some k => [{| p_node := k; p_id := q_id q; p_nr := q_nr q; p_len := q_len q; p_idx := q_idx q |}]
  end.
Lemma config_eq nodes qs : config nodes qs = flat_map (mkpdo nodes) qs.
Proof.
  unfold config. assert (H : forall ps, fold_left (fun ps q => configure nodes ps (q_id q) (q_nr q) (q_len q) (q_idx q)) qs ps = ps ++ flat_map (mkpdo nodes) qs).
  { induction qs as [|q qs IH]; intros ps; cbn; [now rewrite app_nil_r|]. rewrite IH. unfold configure, mkpdo.
    destruct (find_node nodes (q_id q)); cbn; [now rewrite <- app_assoc|reflexivity]. }
  apply H.
Qed.

Section Cycle.
  Context (T : num) (N : nat) (s : sender T).
  Definition p_key (p : pdo) : Z * Z := (p_id p, p_nr p).
  Definition targets (p : pdo) : list (nat * Z) := map (pair (p_node p)) (p_idx p).
  Definition good (fo : nat -> nat) (di : nat -> nat) (p : pdo) : Prop :=
    length (p_len p) = length (p_idx p) /\ NoDup (p_idx p) /\ (bytes_of (p_len p) <= 8)%nat /\ (forall l, In l (p_len p) -> (l / 8 <= 4)%nat) /\
    (p_node p < N)%nat /\
    forall i, In i (p_idx p) -> transmissible T (s_in T s (p_node p)) (s_dig T s (p_node p)) (s_scale T s (p_node p)) (fo (p_node p)) (di (p_node p)) i.
  Definition carries (p : pdo) (data : list Z) : Prop :=
    forall n l i, nth_error (p_len p) n = Some l -> nth_error (p_idx p) n = Some i ->
      exists v, sig_value T N s (p_node p) i = Ok v /\ (l / 8 <= 4)%nat /\ (offset (p_len p) n + l / 8 <= length data)%nat /\
        firstn (l / 8) (skipn (offset (p_len p) n) data) = le_bytes (l / 8) v.

  Lemma sig_ok fo di p i : good fo di p -> In i (p_idx p) -> exists v, sig_value T N s (p_node p) i = Ok v.
  Proof.
    intros (_ & _ & _ & _ & Hk & Ht) Hi. destruct (Ht i Hi) as [A B]. unfold sig_value. destruct (Z.ltb_spec 0 i).
    - destruct (A H) as (x & z & Hx & Hz & Hr & _). rewrite Hx. unfold to_u32. rewrite Hz. exists z.
      change (2 ^ 32) with 4294967296 in Hr.
      destruct (Z.leb_spec 0 z); [|lia]. destruct (Z.ltb_spec z 4294967296); [|lia]. reflexivity.
    - destruct (Z.ltb_spec i 0).
      + destruct (B H0) as (v & Hv & _). rewrite Hv. eauto.
      + destruct (Nat.ltb_spec (p_node p) N); [eauto|lia].
  Qed.

  Lemma send_spec fo di garbage : length garbage = 8%nat -> forall ps n, (forall p, In p ps -> good fo di p) ->
    exists ms, send_pdos T N s garbage (fun _ => false) n ps = Ok ms /\
      Forall2 (fun p m => exists d, m = Pdo (p_id p) (p_nr p) d /\ carries p d) ps ms.
  Proof.
    intros Hg. induction ps as [|p ps IH]; intros n G.
    - exists []. split; [reflexivity|constructor].
    - destruct (G p (or_introl eq_refl)) as (G1 & G2 & G3 & G4 & G5 & G6).
      destruct (pack_ok (sig_value T N s (p_node p)) (p_len p) (p_idx p) 0 garbage) as (buf & len & Hp); try lia; auto.
      { intros i Hi. eapply sig_ok; eauto. apply G. now left. }
      pose proof (pack_spec _ _ _ _ _ _ _ Hp (Nat.le_0_l _)) as (P1 & P2 & P3 & _ & P5).
      destruct (IH (S n)) as (ms & E & F); [intros; apply G; now right|].
      exists (Pdo (p_id p) (p_nr p) (firstn len buf) :: ms). cbn [send_pdos]. rewrite Hp. cbn [bind]. rewrite E. split; [reflexivity|].
      constructor; [|exact F]. exists (firstn len buf). split; [reflexivity|]. intros k l i Hl Hi.
      destruct (P5 k l i Hl Hi) as (v & V1 & V2 & V3 & V4). exists v. split; [exact V1|]. split; [exact V2|]. cbn [Nat.add] in *. split.
      + rewrite firstn_length. lia.
      + rewrite <- V4. rewrite !firstn_skipn_comm, firstn_firstn. do 2 f_equal. lia.
  Qed.

  (** Receiving. *)
  Definition sval (i v : Z) : value T :=
    if 0 <? i then Float (Some (nofZ T v)) else if i <? 0 then Digital (Some (v mod 4294967296)) else Status (Z.land v 623).
  Definition places (fo di : nat -> nat) (r : receiver T) : Prop :=
    forall k, length (r_out T r k) = fo k /\ length (r_dig T r k) = di k.

  Lemma upd_neq {A} (f : nat -> A) k v k' : k' <> k -> upd f k v k' = f k'.
  Proof. intros H. unfold upd. destruct (Nat.eqb_spec k' k); [contradiction|reflexivity]. Qed.

  Lemma store_spec fo di k i v r : places fo di r -> (k < N)%nat -> place T r k i ->
    exists r', store T N k i v r = Ok r' /\ places fo di r' /\ signal T r' k i = sval i v /\
      forall k' j, (k', j) <> (k, i) -> signal T r' k' j = signal T r k' j.
  Proof.
    intros Hpl Hk [H1 H2]. unfold store. destruct (Nat.ltb_spec k N); [|lia]. cbn [negb]. unfold sval.
    destruct (Z.ltb_spec 0 i) as [Hi|Hi].
    { rewrite (proj2 (Nat.ltb_lt _ _) (H1 Hi)). eexists. split; [reflexivity|]. split; [|split].
      - intros k'. destruct (Hpl k') as [A B]. cbn. split; [|exact B]. destruct (Nat.eq_dec k' k) as [->|E].
        + rewrite upd_same, set_nth_length. exact A.
        + rewrite upd_neq by exact E. exact A.
      - unfold signal. destruct (Z.ltb_spec 0 i); [|lia]. cbn. rewrite upd_same, set_nth_same by auto. reflexivity.
      - intros k' j D. unfold signal. cbn. destruct (Z.ltb_spec 0 j); [|reflexivity]. destruct (Nat.eq_dec k' k) as [->|E].
        + rewrite upd_same, set_nth_other; [reflexivity|]. intros E. apply D. f_equal. lia.
        + rewrite upd_neq by exact E. reflexivity. }
    destruct (Z.ltb_spec i 0) as [Hj|Hj].
    { rewrite (proj2 (Nat.ltb_lt _ _) (H2 Hj)). eexists. split; [reflexivity|]. split; [|split].
      - intros k'. destruct (Hpl k') as [A B]. cbn. split; [exact A|]. destruct (Nat.eq_dec k' k) as [->|E].
        + rewrite upd_same, set_nth_length. exact B.
        + rewrite upd_neq by exact E. exact B.
      - unfold signal. destruct (Z.ltb_spec 0 i); [lia|]. destruct (Z.ltb_spec i 0); [|lia]. cbn. rewrite upd_same, set_nth_same by auto. reflexivity.
      - intros k' j D. unfold signal. cbn. destruct (Z.ltb_spec 0 j); [reflexivity|]. destruct (Z.ltb_spec j 0); [|reflexivity]. destruct (Nat.eq_dec k' k) as [->|E].
        + rewrite upd_same, set_nth_other; [reflexivity|]. intros E. apply D. f_equal. lia.
        + rewrite upd_neq by exact E. reflexivity. }
    eexists. split; [reflexivity|]. split; [|split].
    - intros k'. exact (Hpl k').
    - unfold signal. destruct (Z.ltb_spec 0 i); [lia|]. destruct (Z.ltb_spec i 0); [lia|]. cbn. rewrite upd_same. reflexivity.
    - intros k' j D. unfold signal. cbn. destruct (Z.ltb_spec 0 j); [reflexivity|]. destruct (Z.ltb_spec j 0); [reflexivity|].
      rewrite upd_neq; [reflexivity|]. intros ->. apply D. f_equal. lia.
  Qed.

  Lemma unpack_gen fo di k (Hk : (k < N)%nat) data : forall lens idx start r, length lens = length idx -> NoDup idx -> places fo di r ->
    (forall i, In i idx -> place T r k i) ->
    (forall n l, nth_error lens n = Some l -> (l / 8 <= 4)%nat /\ (start + offset lens n + l / 8 <= length data)%nat) ->
    exists r', unpack T N k lens idx start data r = Ok r' /\ places fo di r' /\
      (forall k' j, ~ (k' = k /\ In j idx) -> signal T r' k' j = signal T r k' j) /\
      forall n l i, nth_error lens n = Some l -> nth_error idx n = Some i ->
        signal T r' k i = sval i (to_i32 (le_value (firstn (l / 8) (skipn (start + offset lens n) data)))).
  Proof.
    induction lens as [|l lens IH]; intros idx start r Hlen Hnd Hps Hpl Hfit.
    - exists r. split; [reflexivity|]. split; [exact Hps|]. split; auto. intros [|n]; discriminate.
    - destruct idx as [|i idx]; [discriminate|].
      cbn [unpack]. destruct (Hfit 0%nat l eq_refl) as [F1 F2]. unfold offset, bytes_of in F2; cbn [firstn map list_sum fold_right] in F2.
      unfold decode. rewrite (proj2 (Nat.leb_le _ _) F1). cbn [andb].
      rewrite (proj2 (Nat.leb_le (start + l / 8) (length data))) by lia. cbn [bind].
      inversion Hnd as [|? ? Hni Hnd']; subst.
      destruct (store_spec fo di k i (to_i32 (le_value (firstn (l / 8) (skipn start data)))) r Hps Hk (Hpl i (or_introl eq_refl)))
        as (r1 & E1 & S1 & S2 & S3).
      rewrite E1. cbn [bind].
      destruct (IH idx (start + l / 8)%nat r1) as (r' & E2 & P & A & B).
      + cbn in Hlen. lia.
      + auto.
      + exact S1.
      + intros j Hj. destruct (Hpl j (or_intror Hj)) as [X Y]. destruct (S1 k) as [S1a S1b]. destruct (Hps k) as [Ha Hb].
        split; [rewrite S1a, <- Ha; exact X|rewrite S1b, <- Hb; exact Y].
      + intros n l' Hl'. destruct (Hfit (S n) l' Hl') as [G1 G2]. split; auto.
        rewrite offset_cons in G2. lia.
      + exists r'. split; [exact E2|]. split; [exact P|]. split.
        * intros k' j Hj. rewrite A; [|intros [C D]; apply Hj; split; [exact C|now right]]. apply S3. intros [= -> ->]. apply Hj. split; [reflexivity|now left].
        * intros [|n] l' i' Hl Hi; cbn in Hl, Hi.
          { injection Hl as <-. injection Hi as <-. unfold offset, bytes_of; cbn [firstn map list_sum fold_right].
            rewrite Nat.add_0_r. rewrite A; [exact S2|]. intros [_ C]. contradiction. }
          { assert (E : (start + offset (l :: lens) (S n))%nat = (start + l / 8 + offset lens n)%nat).
            { rewrite offset_cons. lia. }
            rewrite E. apply B; auto. }
  Qed.

  Lemma place_of fo di r p i : places fo di r -> good fo di p -> In i (p_idx p) -> place T r (p_node p) i.
  Proof.
    intros P (_ & _ & _ & _ & _ & G) Hi. destruct (G i Hi) as [A B]. destruct (P (p_node p)) as [X Y]. split; intros h.
    - destruct (A h) as (x & z & _ & _ & _ & h'). rewrite X. exact h'.
    - destruct (B h) as (v & _ & h'). rewrite Y. exact h'.
  Qed.
  Lemma arrived_of fo di p r l i v : good fo di p -> In i (p_idx p) -> sig_value T N s (p_node p) i = Ok v -> (l / 8 <= 4)%nat ->
    signal T r (p_node p) i = sval i (to_i32 (low (l / 8) v)) -> arrived T s r (p_node p) l i.
  Proof.
    intros (_ & _ & _ & _ & Hk & G) Hi V1 Hl S. pose proof (low4 (l / 8) v Hl) as Hlow. rewrite to_i32_signed in S by exact Hlow.
    unfold sig_value in V1. destruct (G i Hi) as [A B]. unfold arrived. rewrite S. unfold sval. split; [|split]; intros h.
    + destruct (A h) as (x & z & Hx & Hz & Hr & _). destruct (Z.ltb_spec 0 i); [|lia].
      rewrite Hx in V1. unfold to_u32 in V1. rewrite Hz in V1. change (2 ^ 32) with 4294967296 in Hr.
      destruct (Z.leb_spec 0 z); [|lia]. destruct (Z.ltb_spec z 4294967296); [|lia]. cbn in V1. injection V1 as <-.
      exists x, z. auto.
    + destruct (B h) as (w & Hw & _). destruct (Z.ltb_spec 0 i); [lia|]. destruct (Z.ltb_spec i 0); [|lia].
      rewrite Hw in V1. injection V1 as <-. exists w. split; auto. now rewrite signed32_mod.
    + destruct (Z.ltb_spec 0 i); [lia|]. destruct (Z.ltb_spec i 0); [lia|]. destruct (Nat.ltb_spec (p_node p) N); [|lia].
      injection V1 as <-. f_equal. apply signed32_land; [|exact Hlow]. split; [lia|reflexivity].
  Qed.

  Lemma unpack_arrived fo di p d r : good fo di p -> places fo di r -> carries p d ->
    exists r', unpack T N (p_node p) (p_len p) (p_idx p) 0 d r = Ok r' /\ places fo di r' /\
      (forall k j, ~ In (k, j) (targets p) -> signal T r' k j = signal T r k j) /\
      forall n l i, nth_error (p_len p) n = Some l -> nth_error (p_idx p) n = Some i -> arrived T s r' (p_node p) l i.
  Proof.
    intros G P C. pose proof G as (G1 & G2 & G3 & G4 & G5 & G6).
    destruct (unpack_gen fo di (p_node p) G5 d (p_len p) (p_idx p) 0 r G1 G2 P) as (r' & E & P' & A & B).
    - intros i Hi. eapply place_of; eauto.
    - intros n l Hn. split; [apply G4; eapply nth_error_In; eauto|].
      destruct (nth_error (p_idx p) n) as [i|] eqn:Ei.
      + destruct (C n l i Hn Ei) as (v & _ & _ & X & _). exact X.
      + apply nth_error_None in Ei. assert (nth_error (p_len p) n <> None) as h by congruence. apply nth_error_Some in h. lia.
    - exists r'. split; [exact E|]. split; [exact P'|]. split.
      + intros k j Hj. apply A. intros [-> Hi]. apply Hj. unfold targets. apply in_map. exact Hi.
      + intros n l i Hl Hi. destruct (C n l i Hl Hi) as (v & V1 & V2 & V3 & V4).
        apply (arrived_of fo di p r' l i v G (nth_error_In _ _ Hi) V1 V2). rewrite (B n l i Hl Hi). cbn [Nat.add]. rewrite V4, le_value_bytes. reflexivity.
  Qed.

  Lemma dispatch_none ps id nr d r : (forall p, In p ps -> p_key p <> (id, nr)) -> dispatch T N ps id nr d r = Ok r.
  Proof.
    induction ps as [|p ps IH]; intros H; cbn [dispatch]; [reflexivity|].
    assert (E : (id =? p_id p) && (nr =? p_nr p) = false).
    { destruct (Z.eqb_spec id (p_id p)); [|reflexivity]. destruct (Z.eqb_spec nr (p_nr p)); [|reflexivity]. exfalso.
      apply (H p (or_introl eq_refl)). unfold p_key. congruence. }
    rewrite E. cbn [bind]. apply IH. intros q Hq. apply H. now right.
  Qed.
  Lemma dispatch_one ps p d r r' : NoDup (map p_key ps) -> In p ps -> unpack T N (p_node p) (p_len p) (p_idx p) 0 d r = Ok r' ->
    dispatch T N ps (p_id p) (p_nr p) d r = Ok r'.
  Proof.
    induction ps as [|q ps IH]; intros D I U; [destruct I|]. cbn [map] in D. inversion D as [|? ? Dq Dp]; subst. cbn [dispatch].
    destruct I as [->|I].
    - rewrite !Z.eqb_refl. cbn [andb]. rewrite U. cbn [bind]. apply dispatch_none. intros x Hx E. apply Dq.
      replace (p_key p) with (p_key x) by (rewrite E; reflexivity). apply in_map. exact Hx.
    - assert (E : (p_id p =? p_id q) && (p_nr p =? p_nr q) = false).
      { destruct (Z.eqb_spec (p_id p) (p_id q)); [|reflexivity]. destruct (Z.eqb_spec (p_nr p) (p_nr q)); [|reflexivity]. exfalso.
        apply Dq. replace (p_key q) with (p_key p) by (unfold p_key; congruence). apply in_map. exact I. }
      rewrite E. cbn [bind]. apply IH; auto.
  Qed.

  (** The PDOs of which a message is received. *)
  Definition received (rx : list (option (Z * Z * list Z))) (p : pdo) : Prop := exists d, In (Pdo (p_id p) (p_nr p) d) (carried rx).
  Lemma received_dec rx p : {received rx p} + {~ received rx p}.
  Proof.
    induction rx as [|[[[id nr] d]|] rx IH].
    - right. intros [d []].
    - destruct (Z.eq_dec (p_id p) id) as [E|E]; [destruct (Z.eq_dec (p_nr p) nr) as [F|F]|].
      + left. exists d. left. rewrite E, F. reflexivity.
      + destruct IH as [IH|IH]; [left; destruct IH as [x X]; exists x; now right|right]. intros [x [X|X]]; [congruence|]. apply IH. exists x. exact X.
      + destruct IH as [IH|IH]; [left; destruct IH as [x X]; exists x; now right|right]. intros [x [X|X]]; [congruence|]. apply IH. exists x. exact X.
    - destruct IH as [IH|IH]; [left; exact IH|right; exact IH].
  Qed.

  Lemma recv_spec fo di ps ms : NoDup (map p_key ps) -> (forall p, In p ps -> good fo di p) ->
    (forall p q t, In p ps -> In q ps -> In t (targets p) -> In t (targets q) -> p = q) ->
    Forall2 (fun p m => exists d, m = Pdo (p_id p) (p_nr p) d /\ carries p d) ps ms ->
    forall rx r, places fo di r -> (forall m, In m (carried rx) -> In m ms) ->
    exists r', recv_loop T N ps rx r = Ok r' /\ places fo di r' /\
      (forall k j, (forall p, In p ps -> received rx p -> ~ In (k, j) (targets p)) -> signal T r' k j = signal T r k j) /\
      forall p n l i, In p ps -> received rx p -> nth_error (p_len p) n = Some l -> nth_error (p_idx p) n = Some i -> arrived T s r' (p_node p) l i.
  Proof.
    intros ND G DJ F. induction rx as [|[[[id nr] d]|] rx IH]; intros r P M.
    - exists r. split; [reflexivity|]. split; [exact P|]. split; [auto|]. intros p n l i _ [x []].
    - cbn [recv_loop].
      assert (X : exists p, In p ps /\ p_id p = id /\ p_nr p = nr /\ carries p d).
      { assert (I : In (Pdo id nr d) ms) by (apply M; left; reflexivity). clear - F I. induction F as [|p m ps ms [d' [-> C]] F IH]; [destruct I|].
        destruct I as [I|I]; [injection I as <- <- <-; exists p; split; [left; reflexivity|auto]|].
        destruct (IH I) as (q & Q1 & Q2). exists q. split; [right; exact Q1|exact Q2]. }
      destruct X as (p & Ip & <- & <- & C). destruct (unpack_arrived fo di p d r (G p Ip) P C) as (r1 & U & P1 & A1 & B1).
      rewrite (dispatch_one ps p d r r1 ND Ip U). cbn [bind].
      destruct (IH r1 P1) as (r' & E & P' & A & B); [intros m Hm; apply M; right; exact Hm|].
      assert (Rp : received (Some (p_id p, p_nr p, d) :: rx) p) by (exists d; left; reflexivity).
      assert (Rr : forall q, received rx q -> received (Some (p_id p, p_nr p, d) :: rx) q) by (intros q [x X]; exists x; right; exact X).
      exists r'. split; [exact E|]. split; [exact P'|]. split.
      + intros k j H. rewrite A; [apply A1; apply H; auto|]. intros q Iq Rq. apply H; auto.
      + intros q n l i Iq Rq Hl Hi. destruct (received_dec rx q) as [R|R]; [eapply B; eauto|].
        assert (Eq : q = p).
        { destruct Rq as [x [X|X]]; [|exfalso; apply R; exists x; exact X]. injection X as X1 X2 X3.
          assert (K : p_key p = p_key q) by (unfold p_key; congruence). clear - ND Ip Iq K.
          induction ps as [|y l IH]; [destruct Ip|]. cbn [map] in ND. inversion ND as [|? ? N1 N2]; subst.
          destruct Ip as [->|Ip], Iq as [->|Iq]; auto.
          - exfalso. apply N1. rewrite K. apply in_map. exact Iq.
          - exfalso. apply N1. rewrite <- K. apply in_map. exact Ip. }
        subst q. pose proof (B1 n l i Hl Hi) as Y. unfold arrived in *.
        rewrite (A (p_node p) i); [exact Y|]. intros q Iq' Rq' Hq. apply R.
        assert (p = q) as ->; [|exact Rq'].
        apply (DJ p q (p_node p, i) Ip Iq'); [unfold targets; apply in_map; eapply nth_error_In; eauto|exact Hq].
    - cbn [recv_loop]. exact (IH r P M).
  Qed.
End Cycle.

Lemma nodup_l {A} (l m : list A) : NoDup (l ++ m) -> NoDup m.
Proof. induction l; cbn; intros H; [exact H|]. inversion H; auto. Qed.
Lemma nodup_r {A} (l m : list A) : NoDup (l ++ m) -> NoDup l.
Proof.
  induction l as [|a l IH]; cbn; intros H; [constructor|]. inversion H as [|? ? N1 N2]; subst. constructor; [|auto].
  intros I. apply N1. apply in_or_app. left. exact I.
Qed.
Lemma target_once (qs : list request) q q' t : NoDup (flat_map (fun q => map (pair (q_id q)) (q_idx q)) qs) -> In q qs -> In q' qs ->
  In t (map (pair (q_id q)) (q_idx q)) -> In t (map (pair (q_id q')) (q_idx q')) -> q = q'.
Proof.
  induction qs as [|y l IH]; intros N I J K K'; [destruct I|]. cbn [flat_map] in N.
  assert (Nl : NoDup (flat_map (fun q => map (pair (q_id q)) (q_idx q)) l)) by (eapply nodup_l; exact N).
  assert (X : forall x, In x l -> In t (map (pair (q_id x)) (q_idx x)) -> In t (map (pair (q_id y)) (q_idx y)) -> False).
  { intros x Ix Tx Ty. clear - N Ix Tx Ty. induction (map (pair (q_id y)) (q_idx y)) as [|a m IH]; [destruct Ty|].
    cbn in N. inversion N as [|? ? N1 N2]; subst. destruct Ty as [->|Ty]; [|auto]. apply N1. apply in_or_app. right.
    apply in_flat_map. exists x. auto. }
  destruct I as [->|I], J as [->|J]; auto.
  - exfalso. eapply X; eauto.
  - exfalso. eapply X; eauto.
Qed.
Lemma idx_once (qs : list request) q : NoDup (flat_map (fun q => map (pair (q_id q)) (q_idx q)) qs) -> In q qs -> NoDup (q_idx q).
Proof.
  induction qs as [|y l IH]; intros N I; [destruct I|]. cbn [flat_map] in N. destruct I as [->|I].
  - apply nodup_r in N. eapply NoDup_map_inv. exact N.
  - apply IH; [|exact I]. eapply nodup_l. exact N.
Qed.
Lemma in_config nodes qs p : In p (config nodes qs) <-> exists q k, In q qs /\ find_node nodes (q_id q) = Some k /\
  p = {| p_node := k; p_id := q_id q; p_nr := q_nr q; p_len := q_len q; p_idx := q_idx q |}.
Proof.
  rewrite config_eq, in_flat_map. unfold mkpdo. split.
  - intros (q & I & H). destruct (find_node nodes (q_id q)) as [k|] eqn:E; [|destruct H]. destruct H as [<-|[]]. exists q, k. auto.
  - intros (q & k & I & E & ->). exists q. split; [exact I|]. rewrite E. left. reflexivity.
Qed.
Lemma config_keys nodes qs : map p_key (config nodes qs) = map q_key (filter (fun q => existsb (Z.eqb (q_id q)) nodes) qs).
Proof.
  rewrite config_eq. induction qs as [|q qs IH]; [reflexivity|]. cbn [flat_map filter]. rewrite map_app, IH. unfold mkpdo.
  destruct (find_node nodes (q_id q)) as [k|] eqn:E.
  - assert (X : existsb (Z.eqb (q_id q)) nodes = true).
    { apply existsb_exists. exists (q_id q). split; [eapply nth_error_In, find_node_some; eauto|apply Z.eqb_refl]. }
    rewrite X. reflexivity.
  - assert (X : existsb (Z.eqb (q_id q)) nodes = false).
    { apply not_true_iff_false. rewrite existsb_exists. intros (x & I & Ex). apply Z.eqb_eq in Ex. subst x. apply (find_node_none _ _ E). exact I. }
    rewrite X. reflexivity.
Qed.
Lemma nodup_filter_keys (qs : list request) f : NoDup (map q_key qs) -> NoDup (map q_key (filter f qs)).
Proof.
  induction qs as [|q qs IH]; intros N; [constructor|]. cbn [map filter] in *. inversion N as [|? ? N1 N2]; subst. destruct (f q); [|auto].
  cbn [map]. constructor; [|auto]. intros H. apply N1. apply in_map_iff in H as (x & E & I). apply filter_In in I as [I _].
  rewrite <- E. apply in_map. exact I.
Qed.

(** C135 *)
Theorem cycle (T : num) (nodes : list Z) (qs : list request) (s : sender T) (r : receiver T) (garbage : list Z) :
  length garbage = 8%nat -> s_enabled T s = true -> s_pdo T s = config nodes qs -> NoDup nodes -> NoDup (map q_key qs) ->
  NoDup (flat_map (fun q => map (pair (q_id q)) (q_idx q)) qs) ->
  (forall q, In q qs -> length (q_len q) = length (q_idx q) /\ (bytes_of (q_len q) <= 8)%nat /\ (forall l, In l (q_len q) -> (l / 8 <= 4)%nat) /\
     forall k i, nth_error nodes k = Some (q_id q) -> In i (q_idx q) ->
       transmissible T (s_in T s k) (s_dig T s k) (s_scale T s k) (length (r_out T r k)) (length (r_dig T r k)) i) ->
  exists ms, send_run T (length nodes) s garbage (fun _ => false) = Ok (Sync :: ms) /\
    map m_key ms = map (fun q => Some (q_key q)) (filter (fun q => existsb (Z.eqb (q_id q)) nodes) qs) /\
    forall rx, (forall m, In m (carried rx) -> In m ms) ->
      exists r', recv_run T (length nodes) true (config nodes qs) rx r = Ok r' /\
        (forall q k n l i, In q qs -> nth_error nodes k = Some (q_id q) -> (exists d, In (Pdo (q_id q) (q_nr q) d) (carried rx)) ->
           nth_error (q_len q) n = Some l -> nth_error (q_idx q) n = Some i -> arrived T s r' k l i) /\
        (forall k i, (forall q, In q qs -> (exists d, In (Pdo (q_id q) (q_nr q) d) (carried rx)) -> ~ (nth_error nodes k = Some (q_id q) /\ In i (q_idx q))) ->
           signal T r' k i = signal T r k i).
Proof.
  intros Hg He Hc Nn Nk Nt H.
  set (fo := fun k => length (r_out T r k)). set (di := fun k => length (r_dig T r k)).
  assert (G : forall p, In p (config nodes qs) -> good T (length nodes) s fo di p).
  { intros p Ip. apply in_config in Ip as (q & k & Iq & E & ->). destruct (H q Iq) as (H1 & H2 & H3 & H4). apply find_node_some in E.
    split; [exact H1|]. split; [exact (idx_once qs q Nt Iq)|]. split; [exact H2|]. split; [exact H3|]. split.
    - cbn. apply nth_error_Some. congruence.
    - intros i Hi. exact (H4 k i E Hi). }
  destruct (send_spec T (length nodes) s fo di garbage Hg (config nodes qs) 1 G) as (ms & E & F).
  exists ms. split; [|split].
  - unfold send_run. rewrite He, Hc, E. reflexivity.
  - replace (map (fun q => Some (q_key q)) (filter (fun q => existsb (Z.eqb (q_id q)) nodes) qs)) with (map Some (map p_key (config nodes qs)))
      by (rewrite config_keys, map_map; reflexivity).
    clear - F. induction F as [|p m ps ms [d [-> _]] F IH]; [reflexivity|]. cbn [map]. rewrite IH. reflexivity.
  - intros rx M.
    assert (Nc : NoDup (map p_key (config nodes qs))) by (rewrite config_keys; apply nodup_filter_keys; exact Nk).
    assert (DJ : forall p q t, In p (config nodes qs) -> In q (config nodes qs) -> In t (targets p) -> In t (targets q) -> p = q).
    { intros p p' t Ip Ip' Tp Tp'. apply in_config in Ip as (q & k & Iq & Ek & ->). apply in_config in Ip' as (q' & k' & Iq' & Ek' & ->).
      unfold targets in Tp, Tp'. cbn in Tp, Tp'. apply in_map_iff in Tp as (i & <- & Ii). apply in_map_iff in Tp' as (i' & X & Ii').
      injection X as -> ->. pose proof (find_node_some _ _ _ Ek) as Fk. pose proof (find_node_some _ _ _ Ek') as Fk'.
      assert (Q : q = q').
      { apply (target_once qs q q' (q_id q, i) Nt Iq Iq'); [apply in_map; exact Ii|]. replace (q_id q) with (q_id q') by congruence. apply in_map. exact Ii'. }
      subst q'. reflexivity. }
    destruct (recv_spec T (length nodes) s fo di (config nodes qs) ms Nc G DJ F rx r) as (r' & Er & _ & A & B); [intros k; split; reflexivity|exact M|].
    exists r'. split; [exact Er|]. split.
    + intros q k n l i Iq Ek Rq Hl Hi.
      set (p := {| p_node := k; p_id := q_id q; p_nr := q_nr q; p_len := q_len q; p_idx := q_idx q |}).
      assert (Ip : In p (config nodes qs)) by (apply in_config; exists q, k; split; [exact Iq|]; split; [apply find_node_nodup; auto|reflexivity]).
      exact (B p n l i Ip Rq Hl Hi).
    + intros k i X. apply A. intros p Ip Rp Tp. apply in_config in Ip as (q & k' & Iq & Ek & ->). unfold targets in Tp. cbn in Tp.
      apply in_map_iff in Tp as (j & Ej & Ij). injection Ej as -> ->. apply (X q Iq Rp). split; [apply find_node_some; exact Ek|exact Ij].
Qed.

Lemma send_disabled (T : num) (N : nat) (s : sender T) (garbage : list Z) (err : nat -> bool) : s_enabled T s = false ->
  send_run T N s garbage err = Ok [].
Proof. intros H. unfold send_run. rewrite H. reflexivity. Qed.
