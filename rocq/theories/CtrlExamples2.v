(** Counterexamples for the property file of the further control blocks. *)
From Coq Require Import Reals Lra Lia Floats.SpecFloat.
From Flocq Require Import Core.Raux.
From Verif Require Import Prelude Num NumOrd CtrlModel CtrlModel2 CtrlSpec2 CtrlProofs3 CtrlProofs4 CtrlProofs5.
Open Scope Z_scope.

(** Delay *)
Lemma delay_length_real (delay ts : R) n : (0 < ts)%R -> 1 <= n < 2 ^ 32 ->
  (IZR n * ts <= delay < IZR (n + 1) * ts)%R -> dl_length Rnum delay ts = Ok (Z.to_nat n).
Proof.
  intros Ht Hn [H1 H2]. unfold dl_length. cbn -[Z.pow].
  assert (Ztrunc (delay / ts) = n) as ->.
  { assert (0 <= IZR n)%R by (apply (IZR_le 0); lia).
    assert (IZR n <= delay / ts)%R.
    { apply (Rmult_le_reg_r ts); [lra|]. unfold Rdiv. rewrite Rmult_assoc, Rinv_l; lra. }
    rewrite Ztrunc_floor by lra. apply Zfloor_imp. split; [lra|].
    apply (Rmult_lt_reg_r ts); [lra|]. unfold Rdiv. rewrite Rmult_assoc, Rinv_l; lra. }
  destruct (Z.ltb_spec n 0); [lia|]. destruct (Z.leb_spec (2 ^ 32) n); [lia|].
  destruct (Z.ltb_spec n 1); [lia|]. reflexivity.
Qed.
Lemma delay_short_real (delay ts : R) : (0 <= delay < ts)%R -> dl_length Rnum delay ts = Fault.
Proof.
  intros H. unfold dl_length. cbn -[Z.pow].
  assert (Ztrunc (delay / ts) = 0) as ->; [|reflexivity].
  assert (0 <= delay / ts)%R.
  { apply (Rmult_le_reg_r ts); [lra|]. unfold Rdiv. rewrite Rmult_assoc, Rinv_l; lra. }
  rewrite Ztrunc_floor by lra. apply Zfloor_imp. split; [exact H0|]. change (0 + 1) with 1.
  apply (Rmult_lt_reg_r ts); [lra|]. unfold Rdiv. rewrite Rmult_assoc, Rinv_l; lra.
Qed.
Lemma delay_one_short (n : nat) (is : list (signal nat)) junk k : (0 < n)%nat -> (n <= k < length is)%nat ->
  nth k (dl_runs (dl_init n junk) is) None = Some (nth (k - n + 1) is (mksig 0%nat 0)).
Proof.
  intros Hn Hk. rewrite (delay_runs (mksig 0%nat 0)) by lia.
  destruct (Nat.ltb_spec k (n - 1)); [lia|]. do 2 f_equal. lia.
Qed.
Lemma delay_refuted : exists n is k, (n <= k)%nat /\
  nth k (dl_runs (dl_init n (fun _ => mksig 0%nat 0)) is) None <> Some (nth (k - n) is (mksig 0%nat 0)) /\
  is = [mksig 1%nat 0; mksig 2%nat 1] /\ n = 1%nat.
Proof.
  exists 1%nat, [mksig 1%nat 0; mksig 2%nat 1], 1%nat. cbn. repeat split; try lia. discriminate.
Qed.
Lemma delay_03_01 : dl_length Dnum (dlit 3 10) (dlit 1 10) = Ok 2%nat.
Proof. vm_compute. reflexivity. Qed.
Lemma delay_conversion : exists delay ts : Dnum, dl_length Dnum delay ts = UB /\
  delay = dlit (-2) 1 /\ ts = dlit 1 1.
Proof. exists (dlit (-2) 1), (dlit 1 1). repeat split; vm_compute; reflexivity. Qed.

(** Wrap-around *)
Lemma wa_refuted : exists mn mx x : R, (mn < mx)%R /\ wa_calc Rnum mn mx x = x /\ (mx < x)%R.
Proof.
  exists 0%R, 1%R, 2%R. split; [lra|]. split; [|lra].
  pose proof (wa_multiple 0 1 2 ltac:(lra)) as H. replace (0 + 2 * (1 - 0))%R with 2%R in H by lra. exact H.
Qed.
(** -pi, pi and -122.522113490001936 *)
Definition d_pi : Dnum := S754_finite false 0x1921fb54442d18 (-51).
Definition d_mpi : Dnum := S754_finite true 0x1921fb54442d18 (-51).
Definition d_x : Dnum := S754_finite true 0x1ea16a4eb316f6 (-46).
Lemma wa_double : SFltb d_pi (wa_calc Dnum d_mpi d_pi d_x) = true /\ SFltb (dlit 6 1) (wa_calc Dnum d_mpi d_pi d_x) = true.
Proof. split; vm_compute; reflexivity. Qed.
Lemma wa_double_ex : exists mn mx x : Dnum, SFltb mn mx = true /\ SFltb mx (wa_calc Dnum mn mx x) = true /\
  neqb Dnum (wa_calc Dnum mn mx x) x = false.
Proof. exists d_mpi, d_pi, d_x. repeat split; vm_compute; reflexivity. Qed.

(** Switch: selecting an input of a combined switch does not change the switch it is combined with. *)
Definition pair_world : sworld Dnum := fun k =>
  match k with
  | 0%nat => {| sw_cur := 0; sw_cond := None; sw_armed := false; sw_switched := false; sw_children := [1%nat]; sw_event := false |}
  | _ => {| sw_cur := 0; sw_cond := None; sw_armed := false; sw_switched := false; sw_children := []; sw_event := false |}
  end.
Lemma child_alone : match sw_to Dnum 2 3 pair_world 1 1 with
  | Ok w => (sw_cur (w 0%nat), sw_cur (w 1%nat))
  | _ => (9, 9)
  end = (0, 1).
Proof. reflexivity. Qed.
Lemma not_together : exists (w w' : sworld Dnum) k c, In c (sw_children (w k)) /\ sw_cur (w k) = sw_cur (w c) /\
  (exists idx, sw_to Dnum 2 3 w c idx = Ok w') /\ sw_cur (w' k) <> sw_cur (w' c).
Proof.
  exists pair_world, (upd pair_world 1 (sw_set_cur Dnum (pair_world 1%nat) 1)), 0%nat, 1%nat.
  split; [now left|]. split; [reflexivity|]. split; [exists 1; reflexivity|]. cbn. discriminate.
Qed.
(** Combination with each other. *)
Lemma mutual_combine (N : num) (n : Z) : 0 < n -> exists w : sworld N,
  (forall fuel, sw_combine N n (S fuel) w 0 1 = Ok (upd (upd w 0 {| sw_cur := sw_cur (w 0%nat); sw_cond := sw_cond (w 0%nat);
     sw_armed := sw_armed (w 0%nat); sw_switched := sw_switched (w 0%nat); sw_children := [1%nat]; sw_event := sw_event (w 0%nat) |})
     1 (sw_set_cur N (w 1%nat) 0))) /\
  (forall fuel w', sw_combine N n 1 w 0 1 = Ok w' -> sw_combine N n fuel w' 1 0 = UB).
Proof.
  intros Hn. exists (fun _ => sw_new N 0). split.
  - intros fuel. unfold sw_combine. cbn. destruct (Z.ltb_spec 0 n); [reflexivity|lia].
  - intros fuel w' H. unfold sw_combine in H. cbn in H. destruct (Z.ltb_spec 0 n); [|lia]. injection H as <-.
    unfold sw_combine. apply mutual_loop; [cbn; exact Hn|lia|].
    intros j. destruct j as [|[|j]]; reflexivity.
Qed.
Lemma mutual_never (N : num) (n : Z) : 0 < n -> exists w : sworld N, forall fuel idx, idx < n -> sw_to N n fuel w 0 idx = UB.
Proof. intros Hn. exists mutual. intros. apply mutual_loop; auto using only_cur_refl. Qed.
(** An automatic switch to an input that does not exist. *)
Definition bad_next : sworld Dnum := fun _ =>
  {| sw_cur := 0; sw_cond := Some (dlit 5 1, dlit 1 1, 7); sw_armed := true; sw_switched := false;
     sw_children := []; sw_event := true |}.
Lemma bad_next_run : match sw_run Dnum 2 3 bad_next 0 (fun _ => mksig (dlit 5 1) 0) true with
  | Ok (w, _, ev) => (ev, sw_switched (w 0%nat), sw_cur (w 0%nat))
  | _ => (false, false, 9)
  end = (true, true, 0).
Proof. vm_compute. reflexivity. Qed.
Lemma run_result {N : num} (r : outcome (sworld N * signal N * bool)) b c :
  match r with Ok (w, _, ev) => (ev, sw_switched (w 0%nat), sw_cur (w 0%nat)) | _ => (false, false, 9) end = (true, b, c) ->
  exists w' o, r = Ok (w', o, true) /\ sw_switched (w' 0%nat) = b.
Proof. destruct r as [[[w' o] ev]| |]; try discriminate. intros H. injection H as -> Hs _. exists w', o. auto. Qed.
Lemma bad_next_ex : exists (w w' : sworld Dnum) ins o, sw_run Dnum 2 3 w 0 ins true = Ok (w', o, true) /\
  sw_switched (w' 0%nat) = true /\ forall j, sw_cur (w' j) = sw_cur (w j).
Proof.
  destruct (@run_result Dnum (sw_run Dnum 2 3 bad_next 0 (fun _ => mksig (dlit 5 1) 0) true) true 0 bad_next_run) as (w' & o & E & Hs). exists bad_next, w', (fun _ => mksig (dlit 5 1) 0), o.
  split; [exact E|]. split; [exact Hs|].
  destruct (sw_run_cases 2 3 _ _ _ _ _ _ _ E) as [[_ H]|(level & delta & next & _ & _ & Hc & _ & _ & _ & _ & _ & _ & _ & _ & H)];
    [discriminate|].
  pose proof (f_equal (fun o : option (Dnum * Dnum * Z) => match o with Some (_, z) => z | None => 0 end) Hc : 7 = next).
  apply H. lia.
Qed.
(** Arming without a condition; an initial selection that does not exist. *)
Lemma armed_uninit (N : num) n fuel ins lvl : 0 < n -> sw_run N n fuel (sw_arm N (fun _ => sw_new N 0) 0) 0 ins lvl = UB.
Proof. intros H. unfold sw_run. cbn. destruct (Z.ltb_spec 0 n); [reflexivity|lia]. Qed.
Lemma init_invalid (N : num) n fuel ins lvl init : 0 <= init <= 255 -> n <= init ->
  sw_run N n fuel (fun _ => sw_new N init) 0 ins lvl = UB.
Proof.
  intros H1 H2. unfold sw_run. cbn -[Z.modulo]. rewrite Z.mod_small by lia. destruct (Z.ltb_spec init n); [lia|reflexivity].
Qed.
Lemma sw_run_ok (N : num) n fuel w k ins lvl : sw_cur (w k) < n -> sw_armed (w k) = false ->
  sw_run N n fuel w k ins lvl = Ok (w, ins (sw_cur (w k)), false).
Proof. intros H1 H2. unfold sw_run. rewrite H2. destruct (Z.ltb_spec (sw_cur (w k)) n); [reflexivity|lia]. Qed.

(** Peripheral output *)
Lemma po_spec safe i :
  (d_isnan (sv i) = true \/ d_isinf (sv i) = true -> po_run safe i = (mksig safe (st i), true)) /\
  (d_isnan (sv i) = false -> d_isinf (sv i) = false -> po_run safe i = (i, false)).
Proof.
  unfold po_run. split.
  - intros [-> | ->]; [|destruct (d_isnan (sv i))]; reflexivity.
  - intros -> ->. cbn. now destruct i.
Qed.
Lemma po_finite safe i : d_isnan safe = false -> d_isinf safe = false ->
  d_isnan (sv (fst (po_run safe i))) = false /\ d_isinf (sv (fst (po_run safe i))) = false.
Proof.
  intros H1 H2. unfold po_run. cbn [fst sv]. destruct (d_isnan (sv i)) eqn:E1, (d_isinf (sv i)) eqn:E2; cbn; auto.
Qed.
Lemma po_default : exists i, fst (po_run (po_safe None) i) = mksig dnan (st i) /\ d_isnan (sv i) = true.
Proof. exists (mksig dnan 5). split; reflexivity. Qed.

(** Rising transition: runs beyond the ratio leave the range of the last two inputs. *)
Definition tn_start : transition Dnum :=
  tn_in_run Dnum (tn_in_run Dnum (tn_new Dnum dnan (mksig (dlit 0 1) 0) (dlit 2 1) false) (mksig (dlit 0 1) 100)) (mksig (dlit 1 1) 200).
Lemma tn_extrapolates : match tn_outs tn_start [0; 0; 0; 0] with
  | Ok (_, l) => l
  | _ => []
  end = [mksig (dlit 0 1) 100; mksig (dlit 1 2) 150; mksig (dlit 1 1) 200; mksig (dlit 3 2) 250].
Proof. vm_compute. reflexivity. Qed.
Lemma four_outs {A B : Type} (r : outcome (A * list B)) (P : B -> bool) :
  match r with Ok (_, [o1; o2; o3; o4]) => P o4 | _ => false end = true ->
  exists s' o1 o2 o3 o4, r = Ok (s', [o1; o2; o3; o4]) /\ P o4 = true.
Proof. destruct r as [[s' [|o1 [|o2 [|o3 [|o4 [|]]]]]]| |]; try discriminate. intros H. exists s', o1, o2, o3, o4. auto. Qed.
Definition tn_one : transition Dnum :=
  tn_in_run Dnum (tn_new Dnum dnan (mksig (dlit 0 1) 0) (dlit 2 1) false) (mksig (dlit 0 1) 100).
Definition tn_next : signal Dnum := mksig (dlit 1 1) 200.
Lemma tn_extrapolates_ex : exists (s s' : transition Dnum) (i o1 o2 o3 o4 : signal Dnum),
  tn_up s = true /\ tn_ratio s = dlit 2 1 /\ tn_outs (tn_in_run Dnum s i) [0; 0; 0; 0] = Ok (s', [o1; o2; o3; o4]) /\
  SFltb (sv (tn_in s)) (sv i) = true /\ SFltb (sv i) (sv o4) = true /\ (st i < st o4)%Z.
Proof.
  destruct (four_outs (tn_outs (tn_in_run Dnum tn_one tn_next) [0; 0; 0; 0])
    (fun o4 => SFltb (sv tn_next) (sv o4) && (st tn_next <? st o4))) as (s' & o1 & o2 & o3 & o4 & E & H).
  { vm_compute. reflexivity. }
  apply andb_prop in H. destruct H as [H1 H2]. apply Z.ltb_lt in H2.
  exists tn_one, s', tn_next, o1, o2, o3, o4. split; [vm_compute; reflexivity|]. split; [vm_compute; reflexivity|]. split; [exact E|].
  split; [vm_compute; reflexivity|]. split; assumption.
Qed.
(** Falling transition: two runs of the out block without a run of the in block. *)
Lemma tn_down_twice : exists (s : transition Dnum) i, tn_up s = false /\ tn_steady s = false /\
  tn_outs (tn_in_run Dnum s i) [10; 20] = UB.
Proof. exists (tn_new Dnum dnan (mksig (dlit 0 1) 0) (dlit 1 2) false), (mksig (dlit 1 1) 5). repeat split; vm_compute; reflexivity. Qed.

Lemma wa_set_same (N : num) (s : wrap N) mn mx : wa_set N s mn mx = s.
Proof. now destruct s. Qed.

Lemma sw_event_valid (N : num) n fuel (w : sworld N) k ins lvl w' o level delta next :
  sw_cond (w k) = Some (level, delta, next) -> next < n ->
  sw_run N n fuel w k ins lvl = Ok (w', o, true) -> sw_cur (w' k) = next /\ o = ins next.
Proof.
  intros Hc Hn H. pose proof (sw_run_out _ _ _ _ _ _ _ _ _ H) as Ho.
  destruct (sw_run_cases _ _ _ _ _ _ _ _ _ H) as [[_ E]|(l' & d' & n' & _ & _ & Hc' & _ & _ & _ & _ & _ & _ & A & _)];
    [discriminate|].
  rewrite Hc in Hc'. injection Hc' as <- <- <-. rewrite (A Hn k (BSelf w k)) in Ho. split; [apply A; [exact Hn|constructor]|exact Ho].
Qed.
