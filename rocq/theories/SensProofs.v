(** Proofs about sensor blocks, ROS1 blocks and device buttons. *)
From Coq Require Import List ZArith Bool String Lia.
From Verif Require Import Prelude Num RosModel RosProofs2 SensModel SensSpec.
Import List ListNotations.
Open Scope list_scope.
Open Scope nat_scope.

(** * Blocks *)

Ltac outputs := intros V data ts s o H; cbn in H;
  do 6 (destruct o as [|o]; [try reflexivity; exfalso; lia|]); exfalso; lia.
Lemma pixy_complete : complete pixy_input. Proof. outputs. Qed.
Lemma t265_complete : complete t265_input. Proof. outputs. Qed.
Lemma sbg_complete : complete sbg_input. Proof. outputs. Qed.
Lemma baumer_complete : complete baumer_input. Proof. outputs. Qed.
Lemma elmo_complete : complete elmo_input. Proof. outputs. Qed.

Lemma five_complete : forall b,
  In b [pixy_input; t265_input; sbg_input; baumer_input; elmo_input] -> complete b.
Proof.
  intros b [<-|[<-|[<-|[<-|[<-|[]]]]]].
  - exact pixy_complete.
  - exact t265_complete.
  - exact sbg_complete.
  - exact baumer_complete.
  - exact elmo_complete.
Qed.

Lemma rplidar_incomplete : ~ complete rplidar_input.
Proof.
  intro H. specialize (H nat (fun k => k) 5%Z (fun _ => (None, None)) 1 ltac:(cbn; lia)).
  assert (E : sb_step rplidar_input (fun k : nat => k) 5%Z (fun _ => (None, None)) 1
              = (Some 1, None)) by reflexivity.
  rewrite E in H; discriminate H.
Qed.

Lemma odrive_incomplete : ~ complete odrive_uart_input.
Proof.
  intro H. specialize (H nat (fun k => k) 5%Z (fun _ => (None, None)) 0 ltac:(cbn; lia)).
  assert (E : sb_step odrive_uart_input (fun k : nat => k) 5%Z (fun _ => (None, None)) 0
              = (Some 0, None)) by reflexivity.
  rewrite E in H; discriminate H.
Qed.

Lemma rplidar_does : forall (V : Type) (data : nat -> V) ts s,
  sb_step rplidar_input data ts s 0 = (Some (data 0), Some ts) /\
  sb_step rplidar_input data ts s 1 = (Some (data 1), snd (s 1)).
Proof. intros; split; reflexivity. Qed.

Lemma odrive_does : forall (V : Type) (data : nat -> V) ts s,
  sb_step odrive_uart_input data ts s 0 = (Some (data 0), snd (s 0)) /\
  forall o, 0 < o -> sb_step odrive_uart_input data ts s o = s o.
Proof.
  intros; split; [reflexivity|]. intros [|o] H; [lia|reflexivity].
Qed.

(** * Shared vectors *)

Lemma t_run_app : forall a b s, t_run s (a ++ b) = t_run (t_run s a) b.
Proof. intros; unfold t_run; apply fold_left_app. Qed.

Lemma set_nth_nth : forall l k v i,
  nth_error (set_nth l k v) i =
  if Nat.eqb i k then match nth_error l k with Some _ => Some v | None => None end
  else nth_error l i.
Proof.
  induction l as [|x l IH]; intros k v i.
  - cbn; destruct i, k; try reflexivity. cbn; destruct (i =? k); reflexivity.
  - destruct k as [|k], i as [|i]; try reflexivity. cbn. rewrite IH. reflexivity.
Qed.

Lemma set_nth_length : forall l k v, length (set_nth l k v) = length l.
Proof. induction l; intros [|k] v; cbn; auto. Qed.

Lemma in_writes : forall s k v, In (k, v) (writes s) -> nth_error s k = Some v.
Proof.
  intros s k v; unfold writes.
  assert (G : forall s o, In (k, v) (combine (seq o (length s)) s) ->
    o <= k /\ nth_error s (k - o) = Some v).
  { clear s; induction s as [|x s IH]; intros o H; [contradiction|].
    cbn [length seq combine] in H. destruct H as [H|H].
    - injection H as -> ->. rewrite Nat.sub_diag. split; [lia|reflexivity].
    - destruct (IH _ H) as [A B]. split; [lia|].
      replace (k - o) with (S (k - S o)) by lia. exact B. }
  intro H; apply G in H. rewrite Nat.sub_0_r in H; tauto.
Qed.

Definition elem_ok (vs : list (list Z)) (i : nat) (v : Z) : Prop :=
  exists x, In x vs /\ nth_error x i = Some v.

Lemma t_elements : forall vs es s,
  (forall i v, nth_error (t_mem s) i = Some v -> elem_ok vs i v) ->
  (forall i v, In (i, v) (t_todo s) -> elem_ok vs i v) ->
  (forall i v, nth_error (t_got s) i = Some v -> elem_ok vs i v) ->
  forall i v, nth_error (t_got (t_run s es)) i = Some v -> elem_ok vs i v.
Proof.
  induction es as [|e es IH]; intros s Hm Ht Hg; [exact Hg|].
  change (t_run s (e :: es)) with (t_run (t_step s e) es).
  destruct e; cbn [t_step].
  - destruct (t_todo s) as [|[k w] r] eqn:E; [apply IH; auto; rewrite E; auto|].
    apply IH; cbn [t_mem t_todo t_got]; auto.
    + intros i v. rewrite set_nth_nth. destruct (Nat.eqb_spec i k) as [->|].
      * destruct (nth_error (t_mem s) k); [|discriminate].
        intro X; injection X as <-. apply Ht; left; reflexivity.
      * apply Hm.
    + intros i v H; apply Ht; right; exact H.
  - destruct (nth_error (t_mem s) (length (t_got s))) as [w|] eqn:E; [|apply IH; auto].
    apply IH; cbn [t_mem t_todo t_got]; auto.
    intros i v H. destruct (Nat.lt_ge_cases i (length (t_got s))) as [L|L].
    + rewrite nth_error_app1 in H by exact L. apply Hg; exact H.
    + rewrite nth_error_app2 in H by exact L.
      destruct (i - length (t_got s)) as [|d] eqn:D; [|destruct d; discriminate].
      injection H as <-. replace i with (length (t_got s)) by lia. apply Hm; exact E.
Qed.

Lemma t_elements0 : forall init samples es i v,
  nth_error (t_got (t_run (t_start init samples) es)) i = Some v ->
  exists x, In x (init :: samples) /\ nth_error x i = Some v.
Proof.
  intros init samples es i v.
  refine (t_elements (init :: samples) es (t_start init samples) _ _ _ i v); cbn [t_start t_mem t_todo t_got].
  - intros j w H; exists init; split; [left; reflexivity|exact H].
  - intros j w H. apply in_flat_map in H. destruct H as (x & Hx & H).
    exists x; split; [right; exact Hx|apply in_writes; exact H].
  - intros [|j] w H; discriminate.
Qed.

(** Whole writes. *)
Lemma write_all : forall s pre mem rest got, length mem = length s ->
  t_run (mkT (pre ++ mem) (combine (seq (length pre) (length s)) s ++ rest) got)
        (repeat TW (length s))
  = mkT (pre ++ s) rest got.
Proof.
  induction s as [|x s IH]; intros pre mem rest got L.
  - destruct mem; [reflexivity|discriminate].
  - destruct mem as [|y mem]; [discriminate|].
    cbn [length seq combine app repeat].
    change (t_run (t_step (mkT (pre ++ y :: mem)
       ((length pre, x) :: combine (seq (S (length pre)) (length s)) s ++ rest) got) TW)
       (repeat TW (length s)) = mkT (pre ++ x :: s) rest got).
    cbn [t_step t_todo t_mem t_got].
    assert (E : set_nth (pre ++ y :: mem) (length pre) x = (pre ++ [x]) ++ mem).
    { clear; induction pre as [|p pre IHp]; [reflexivity|cbn; rewrite IHp; reflexivity]. }
    rewrite E. specialize (IH (pre ++ [x]) mem rest got ltac:(cbn in L; lia)).
    rewrite app_length in IH; cbn [length] in IH. rewrite Nat.add_1_r in IH.
    rewrite IH, <- app_assoc. reflexivity.
Qed.

Lemma write_sample : forall s mem rest got, length mem = length s ->
  t_run (mkT mem (writes s ++ rest) got) (repeat TW (length s)) = mkT s rest got.
Proof. intros; apply (write_all s [] mem rest got); assumption. Qed.

Lemma write_samples : forall k n init samples got,
  length init = n -> Forall (fun x => length x = n) samples -> k <= length samples ->
  t_run (mkT init (flat_map writes samples) got) (repeat TW (k * n))
  = mkT (nth k (init :: samples) []) (flat_map writes (skipn k samples)) got.
Proof.
  induction k as [|k IH]; intros n init samples got Hi Hs Hk; [reflexivity|].
  destruct samples as [|x samples]; [cbn in Hk; lia|].
  inversion Hs as [|? ? Hx Hr]; subst.
  change (S k * length init) with (length init + k * length init).
  rewrite repeat_app, t_run_app. cbn [flat_map].
  rewrite <- Hx at 1. rewrite write_sample by (symmetry; exact Hx).
  rewrite (IH (length init) x samples got Hx Hr ltac:(cbn in Hk; lia)).
  reflexivity.
Qed.

Lemma read_all : forall m pre todo,
  t_run (mkT (pre ++ m) todo pre) (repeat TR (length m)) = mkT (pre ++ m) todo (pre ++ m).
Proof.
  induction m as [|x m IH]; intros pre todo.
  - rewrite app_nil_r; reflexivity.
  - cbn [length repeat].
    change (t_run (t_step (mkT (pre ++ x :: m) todo pre) TR) (repeat TR (length m))
            = mkT (pre ++ x :: m) todo (pre ++ x :: m)).
    cbn [t_step t_mem t_got t_todo].
    rewrite nth_error_app2 by lia. rewrite Nat.sub_diag. cbn [nth_error].
    replace (pre ++ x :: m) with ((pre ++ [x]) ++ m) by (rewrite <- app_assoc; reflexivity).
    apply IH.
Qed.

Lemma full_stays : forall es s, length (t_got s) = length (t_mem s) ->
  t_got (t_run s es) = t_got s.
Proof.
  induction es as [|e es IH]; intros s H; [reflexivity|].
  change (t_run s (e :: es)) with (t_run (t_step s e) es).
  destruct e; cbn [t_step].
  - destruct (t_todo s) as [|[k v] r]; [apply IH; exact H|].
    rewrite IH; [reflexivity|]. cbn. rewrite set_nth_length; exact H.
  - rewrite (proj2 (nth_error_None (t_mem s) (length (t_got s)))) by lia.
    apply IH; exact H.
Qed.

Lemma t_whole : forall n init samples k post,
  length init = n -> Forall (fun x => length x = n) samples -> k <= length samples ->
  t_got (t_run (t_start init samples) (repeat TW (k * n) ++ repeat TR n ++ post))
  = nth k (init :: samples) [].
Proof.
  intros n init samples k post Hi Hs Hk.
  rewrite t_run_app. unfold t_start at 1. rewrite write_samples by assumption.
  set (x := nth k (init :: samples) []).
  assert (Hx : length x = n).
  { unfold x. destruct k as [|k]; [exact Hi|]. cbn [nth].
    rewrite Forall_forall in Hs. apply Hs. apply nth_In. lia. }
  rewrite t_run_app. rewrite <- Hx.
  pose proof (read_all x [] (flat_map writes (skipn k samples))) as E.
  cbn [app] in E. rewrite E. rewrite full_stays; reflexivity.
Qed.

(** * ROS1 queue *)

Lemma last_for_snoc : forall M k (l : list (nat * M)) c,
  last_for k (l ++ [c]) = if fst c =? k then Some (snd c) else last_for k l.
Proof. intros; unfold last_for; rewrite fold_left_app; reflexivity. Qed.

Lemma deliver_all : forall M (q : list (nat * M)) d out,
  (forall k, out k = last_for k d) ->
  forall k, fold_left deliver q out k = last_for k (d ++ q).
Proof.
  intros M; induction q as [|c q IH]; intros d out H k.
  - rewrite app_nil_r; apply H.
  - replace (d ++ c :: q) with ((d ++ [c]) ++ q) by (rewrite <- app_assoc; reflexivity).
    cbn [fold_left]. apply IH. intro j. rewrite last_for_snoc. unfold deliver, upd.
    rewrite Nat.eqb_sym. destruct (fst c =? j); [reflexivity|apply H].
Qed.

Lemma node_step_inv : forall M newest (s : rnode M) o a d,
  a = d ++ rn_queue s -> (forall k, rn_out s k = last_for k d) ->
  exists d', a ++ arrivals [o] = d' ++ rn_queue (node_step newest s o) /\
    (forall k, rn_out (node_step newest s o) k = last_for k d').
Proof.
  intros M newest s o a d Ha Ho. subst a. destruct o as [k m|k]; cbn [node_step arrivals flat_map app].
  - exists d. cbn [rn_queue rn_out]. rewrite app_assoc. split; [reflexivity|exact Ho].
  - destruct (newest k).
    + exists (d ++ rn_queue s). cbn [rn_queue rn_out]. rewrite !app_nil_r.
      split; [reflexivity|]. apply deliver_all; exact Ho.
    + destruct (rn_queue s) as [|c q] eqn:E.
      * exists d. rewrite E, !app_nil_r. split; [reflexivity|exact Ho].
      * exists (d ++ [c]). cbn [rn_queue rn_out]. rewrite app_nil_r, <- app_assoc.
        split; [reflexivity|]. intro j.
        change (fold_left deliver [c] (rn_out s) j = last_for j (d ++ [c])).
        apply deliver_all; exact Ho.
Qed.

Lemma node_run_inv : forall M newest (os : list (rop M)) s a d,
  a = d ++ rn_queue s -> (forall k, rn_out s k = last_for k d) ->
  exists d', a ++ arrivals os = d' ++ rn_queue (node_run newest s os) /\
    (forall k, rn_out (node_run newest s os) k = last_for k d').
Proof.
  intros M newest; induction os as [|o os IH]; intros s a d Ha Ho.
  - exists d. cbn. rewrite app_nil_r. split; [exact Ha|exact Ho].
  - destruct (node_step_inv M newest s o a d Ha Ho) as (d1 & E1 & O1).
    destruct (IH (node_step newest s o) _ d1 E1 O1) as (d2 & E2 & O2).
    exists d2. split; [|exact O2].
    rewrite <- app_assoc in E2.
    change (o :: os) with ([o] ++ os) at 1.
    unfold arrivals at 1; rewrite flat_map_app; exact E2.
Qed.

Lemma node_fifo : forall M newest (os : list (rop M)),
  let s := node_run newest node0 os in
  exists d, arrivals os = d ++ rn_queue s /\ (forall k, rn_out s k = last_for k d).
Proof.
  intros M newest os. apply (node_run_inv M newest os node0 [] []); reflexivity.
Qed.

Lemma node_newest : forall M newest (os : list (rop M)) k, newest k = true ->
  let s := node_run newest node0 (os ++ [RRun k]) in
  rn_queue s = [] /\ forall j, rn_out s j = last_for j (arrivals os).
Proof.
  intros M newest os k Hk s.
  destruct (node_fifo M newest os) as (d & E & O).
  unfold s, node_run. rewrite fold_left_app. cbn [fold_left node_step]. rewrite Hk.
  split; [reflexivity|]. intro j. cbn [rn_out].
  fold (node_run newest node0 os). rewrite E. apply deliver_all; exact O.
Qed.

Lemma node_oldest : forall M newest (os : list (rop M)) k c q, newest k = false ->
  rn_queue (node_run newest node0 os) = c :: q ->
  let s := node_run newest node0 (os ++ [RRun k]) in
  rn_queue s = q /\ rn_out s (fst c) = Some (snd c) /\
  forall j, j <> fst c -> rn_out s j = rn_out (node_run newest node0 os) j.
Proof.
  intros M newest os k c q Hk E s.
  unfold s, node_run. rewrite fold_left_app. cbn [fold_left node_step]. rewrite Hk.
  fold (node_run newest node0 os). rewrite E. cbn [rn_queue rn_out]. unfold deliver.
  split; [reflexivity|]. split; [apply upd_same|]. intros j Hj; apply upd_other; exact Hj.
Qed.

(** * Arrays *)

Lemma array_roundtrip : forall A (v old : list A),
  receive_array (length v) (publish_array (Some v) old) = Ok v.
Proof.
  intros A v old; unfold receive_array, set_col, publish_array.
  rewrite Nat.ltb_irrefl, firstn_all. reflexivity.
Qed.

Lemma array_short : forall A rows (msg : list A),
  receive_array rows msg = UB <-> length msg < rows.
Proof.
  intros A rows msg; unfold receive_array, set_col.
  destruct (Nat.ltb_spec (length msg) rows); split; intros; auto; [discriminate|lia].
Qed.

Lemma scan_ranges : forall A (r : list A) intens rv msg,
  fst (snd (publish_scan (Some r) intens rv msg)) = r.
Proof. reflexivity. Qed.

Lemma scan_intensities : forall A (r i : list A) rv msg,
  snd (snd (publish_scan (Some r) (Some i) rv msg)) = i <-> r = i.
Proof. intros; cbn; split; auto. Qed.

Lemma scan_scalars : forall old stamp k,
  k < 7 -> scan_stamps old stamp k = stamp.
Proof. intros old stamp k H; unfold scan_stamps. destruct (Nat.ltb_spec k 7); [reflexivity|lia]. Qed.

(** * Time *)
Open Scope Z_scope.
Lemma to_ros1_exact : forall ts, 0 <= ts < 2 ^ 53 ->
  to_ros1 Dnum ts = Ok (ts / 1000000000, ts mod 1000000000).
Proof.
  intros ts H. pose proof (to_ros_exact ts H) as E. unfold to_ros in E. unfold to_ros1.
  change ns_per_sec with 1000000000 in E. unfold to_int in E.
  destruct (ntrunc Dnum (ndiv Dnum (nofZ Dnum ts) (nofZ Dnum 1000000000))) as [z|]; [|discriminate].
  destruct (int_range z); [|discriminate]. injection E as E.
  subst z.
  assert (B : 0 <= ts / 1000000000 < 2 ^ 32).
  { split; [apply Z.div_pos; lia|]. apply Z.div_lt_upper_bound; lia. }
  replace (0 <=? ts / 1000000000) with true by (symmetry; apply Z.leb_le; lia).
  replace (ts / 1000000000 <? 2 ^ 32) with true by (symmetry; apply Z.ltb_lt; lia).
  reflexivity.
Qed.
Lemma ros1_time : forall ts, 0 <= ts < 2 ^ 53 -> exists sec nsec,
  to_ros1 Dnum ts = Ok (sec, nsec) /\ ts = sec * 1000000000 + nsec /\ 0 <= nsec < 1000000000.
Proof.
  intros ts H. exists (ts / 1000000000), (ts mod 1000000000).
  split; [apply to_ros1_exact; exact H|].
  pose proof (Z.div_mod ts 1000000000 ltac:(lia)). pose proof (Z.mod_pos_bound ts 1000000000 ltac:(lia)). lia.
Qed.
Lemma ros1_jump : exists ts sec nsec, 0 <= ts < 2 ^ 63 /\
  to_ros1 Dnum ts = Ok (sec, nsec) /\ sec * 1000000000 + nsec = ts + 1000000000.
Proof.
  exists 1763333332999999999, 1763333333, 999999999. split; [lia|]. split; vm_compute; reflexivity.
Qed.
Lemma ros1_range : exists ts, 0 <= ts < 2 ^ 63 /\ to_ros1 Dnum ts = UB.
Proof. exists (2 ^ 32 * 1000000000). split; [lia|]. vm_compute. reflexivity. Qed.
Open Scope nat_scope.

(** * Gamepad *)

Lemma removelast_snoc : forall (l : list bool) b, removelast (l ++ [b]) = l.
Proof. intros; apply removelast_last. Qed.
Lemma last_snoc : forall (l : list bool) b, last (l ++ [b]) false = b.
Proof. intros; apply last_last. Qed.

Lemma reports_app : forall n a b, reports n (a ++ b) = reports n a ++ reports n b.
Proof. intros; unfold reports; apply flat_map_app. Qed.
Lemma genuine_app : forall a b, genuine (a ++ b) = genuine a ++ genuine b.
Proof. intros; unfold genuine; apply flat_map_app. Qed.

Definition xinv (h : list js_event) (s : xstate) : Prop :=
  (forall n, n < 8 ->
     x_state s n = held (reports n h) /\ x_last s n = held (reports n h) /\
     x_down s n = pressed (reports n h) /\ x_up s n = released (reports n h)) /\
  x_calls s = genuine h.

Lemma x_step_inv : forall h s e, xinv h s ->
  exists s', x_step s (Some e) = Ok s' /\ xinv (h ++ [e]) s'.
Proof.
  intros h s e (Hb & Hc). unfold x_step.
  assert (Skip : (forall n, n < 8 -> reports n [e] = []) -> genuine [e] = [] ->
    exists s', Ok (mkX (Some e) (x_state s) (x_state s) (x_up s) (x_down s) (x_calls s)) = Ok s'
      /\ xinv (h ++ [e]) s').
  { intros A B. eexists; split; [reflexivity|]. split; cbn [x_state x_last x_down x_up x_calls].
    - intros n Hn. rewrite reports_app, A, app_nil_r by exact Hn.
      destruct (Hb n Hn) as (P & Q & X & Y). auto.
    - rewrite genuine_app, B, app_nil_r; exact Hc. }
  destruct (j_kind e) eqn:K.
  - destruct (Nat.ltb_spec (j_num e) 8) as [L|L].
    + eexists; split; [reflexivity|]. split; cbn [x_state x_last x_down x_up x_calls].
      * intros n Hn. rewrite reports_app.
        assert (E : reports n [e] = if j_num e =? n then [negb (j_val e =? 0)%Z] else []).
        { unfold reports; cbn [flat_map]. rewrite K, app_nil_r. reflexivity. }
        rewrite E. destruct (Hb n Hn) as (P & Q & X & Y).
        unfold upd. rewrite Nat.eqb_sym. destruct (Nat.eqb_spec (j_num e) n) as [<-|N].
        -- unfold pressed, released, held in *.
           rewrite removelast_snoc, last_snoc, <- Q. auto.
        -- rewrite app_nil_r. auto.
      * rewrite genuine_app, <- Hc. unfold genuine; cbn [flat_map]. rewrite K, app_nil_r.
        replace (j_num e <? 8) with true by (symmetry; apply Nat.ltb_lt; exact L).
        destruct (j_init e); cbn [negb andb]; [rewrite app_nil_r|]; reflexivity.
    + apply Skip.
      * intros n Hn. unfold reports; cbn [flat_map]. rewrite K, app_nil_r.
        destruct (Nat.eqb_spec (j_num e) n); [lia|reflexivity].
      * unfold genuine; cbn [flat_map]. rewrite K, app_nil_r.
        replace (j_num e <? 8) with false by (symmetry; apply Nat.ltb_ge; exact L).
        reflexivity.
  - apply Skip.
    + intros n Hn. unfold reports; cbn [flat_map]. rewrite K; reflexivity.
    + unfold genuine; cbn [flat_map]. rewrite K; reflexivity.
  - apply Skip.
    + intros n Hn. unfold reports; cbn [flat_map]. rewrite K; reflexivity.
    + unfold genuine; cbn [flat_map]. rewrite K; reflexivity.
Qed.

Lemma x_run_inv : forall es h s, xinv h s ->
  exists s', x_run s (map Some es) = Ok s' /\ xinv (h ++ es) s'.
Proof.
  induction es as [|e es IH]; intros h s H.
  - exists s. rewrite app_nil_r. split; [reflexivity|exact H].
  - destruct (x_step_inv h s e H) as (s1 & E1 & I1).
    destruct (IH _ _ I1) as (s2 & E2 & I2).
    exists s2. cbn [map x_run]. rewrite E1. cbn [bind]. split; [exact E2|].
    rewrite <- app_assoc in I2. exact I2.
Qed.

Lemma x_run0 : forall es, exists s, x_run x0 (map Some es) = Ok s /\ xinv es s.
Proof.
  intros es. apply (x_run_inv es [] x0). split; [|reflexivity].
  intros n Hn. repeat split; reflexivity.
Qed.

Lemma x_stale : forall k e s, x_ev s = Some e -> j_kind e = JButton -> j_init e = false ->
  j_num e < 8 ->
  exists s', x_run s (repeat None k) = Ok s' /\
    x_calls s' = x_calls s ++ repeat (j_num e, j_val e) k.
Proof.
  induction k as [|k IH]; intros e s Ev K I N.
  - exists s. rewrite app_nil_r. split; reflexivity.
  - cbn [repeat x_run]. unfold x_step. rewrite Ev, K, I.
    replace (j_num e <? 8) with true by (symmetry; apply Nat.ltb_lt; exact N).
    cbn [bind].
    match goal with |- context [x_run ?t _] => destruct (IH e t) as (s' & E & C) end;
      try assumption; [reflexivity|].
    exists s'. split; [exact E|]. rewrite C. cbn [x_calls].
    rewrite <- app_assoc. reflexivity.
Qed.

Lemma x_stale0 : forall k e, j_kind e = JButton -> j_init e = false -> j_num e < 8 ->
  exists s, x_run x0 (Some e :: repeat None k) = Ok s /\
    x_calls s = repeat (j_num e, j_val e) (S k).
Proof.
  intros k e K I N. cbn [x_run]. unfold x_step. rewrite K, I.
  replace (j_num e <? 8) with true by (symmetry; apply Nat.ltb_lt; exact N).
  cbn [bind].
  match goal with |- context [x_run ?t _] => destruct (x_stale k e t) as (s' & E & C) end;
    try assumption; [reflexivity|].
  exists s'. split; [exact E|]. rewrite C. reflexivity.
Qed.

(** * Identifiers *)

Ltac table :=
  intros id button; split;
  [ intros k H; cbn [In] in H;
    repeat (destruct H as [H|H]; [injection H as <- <-; reflexivity|]); contradiction
  | intros H;
    repeat match goal with
    | |- context [(id =? ?x)%string] =>
        destruct (String.eqb_spec id x);
        [subst; exfalso; eapply H; cbn [In]; eauto 20|]
    end; reflexivity ].

Lemma xbox_reads : reads_table xbox_get xbox_table.
Proof. unfold xbox_get, xbox_table; table. Qed.
Lemma mouse_reads : reads_table mouse_get mouse_table.
Proof. unfold mouse_get, mouse_table; table. Qed.
Lemma spacenav_reads : reads_table spacenav_get spacenav_table.
Proof. unfold spacenav_get, spacenav_table; table. Qed.

Lemma registered : xbox_ids = map fst xbox_table /\ mouse_ids = map fst mouse_table /\
  spacenav_ids = map fst spacenav_table.
Proof. repeat split; reflexivity. Qed.

Lemma ids_nodup : NoDup (xbox_ids ++ mouse_ids ++ spacenav_ids).
Proof.
  assert (D : forall l : list string,
    (fix nd l := match l with [] => true | x :: r =>
       negb (existsb (String.eqb x) r) && nd r end) l = true -> NoDup l).
  { induction l as [|x r IH]; intro H; [constructor|].
    apply andb_prop in H; destruct H as [A B]. constructor; [|apply IH; exact B].
    intro I. apply negb_true_iff in A. rewrite <- not_true_iff_false in A. apply A.
    apply existsb_exists. exists x; split; [exact I|apply String.eqb_refl]. }
  apply D. reflexivity.
Qed.

(** * ControlInput *)

Lemma c_follow : forall os s, c_ref s = c_conn s -> c_conn s <> None -> ~ In CDisconnect os ->
  exists s', c_run s os = Ok s' /\ c_ref s' = c_conn s' /\ c_conn s' = c_conn s.
Proof.
  induction os as [|o os IH]; intros s E C N; [exists s; auto|].
  assert (N' : ~ In CDisconnect os) by (intro; apply N; right; assumption).
  destruct (c_conn s) as [k0|] eqn:K; [|congruence].
  assert (G : forall s1, c_ref s1 = Some k0 -> c_conn s1 = Some k0 ->
    exists s', c_run s1 os = Ok s' /\ c_ref s' = c_conn s' /\ c_conn s' = Some k0).
  { intros s1 R1 C1. rewrite <- C1. apply IH; congruence || exact N'. }
  destruct o; cbn [c_run c_step bind].
  - apply G; cbn [c_ref c_conn]; congruence.
  - rewrite K. apply G; cbn [c_ref c_conn]; congruence.
  - exfalso; apply N; left; reflexivity.
  - rewrite K. cbn [bind]. apply G; cbn [c_ref c_conn]; congruence.
Qed.

Lemma c_same : forall s os, c_conn s <> None -> ~ In CDisconnect os ->
  exists s', c_run s (CMake :: os) = Ok s' /\ c_get s' = c_input s'.
Proof.
  intros s os C N. cbn [c_run c_step]. destruct (c_conn s) as [k|] eqn:K; [|congruence].
  cbn [bind].
  assert (X : Some k <> None) by discriminate.
  destruct (c_follow os (mkC (c_vals s) (Some k) (Some k)) eq_refl X N) as (s' & A & B & _).
  exists s'. split; [exact A|]. unfold c_get, c_input. rewrite B. reflexivity.
Qed.

Lemma c_unconnected : forall s os, c_conn s = None -> c_run s (CMake :: os) = Fault.
Proof. intros s os C. cbn [c_run c_step]. now rewrite C. Qed.
