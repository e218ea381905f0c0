From Coq Require Import Reals Lra Floats.SpecFloat.
From Flocq Require Import Core.Raux.
From Verif Require Import Prelude Num NumOrd NumDbl NumDbl2 BusModel BusSpec BusProofs.
Open Scope Z_scope.

Lemma to_u32_Z z : 0 <= z < 2 ^ 32 -> to_u32 Rnum (IZR z) = Ok z.
Proof.
  intros H. change (2 ^ 32) with 4294967296 in H. unfold to_u32. cbn [ntrunc Rnum]. rewrite Ztrunc_IZR.
  destruct (Z.leb_spec 0 z); [|lia]. destruct (Z.ltb_spec z 4294967296); [reflexivity|lia].
Qed.

(** C137 *)
Definition scale_witness : sender Rnum :=
  {| s_enabled := true; s_in := fun _ => [0%R; 1%R]; s_dig := fun _ => []; s_ctrl := fun _ => 0;
     s_scale := fun n => if (n =? 0)%nat then 1%R else 2%R; s_pdo := [] |}.
Lemma scale_wrong : exists (N : nat) (s : sender Rnum) (k : nat) (i : Z) (x : R), (k < N)%nat /\ 0 < i /\
  nth_error (s_in Rnum s k) (Z.to_nat (i - 1)) = Some x /\
  sig_value Rnum N s k i <> to_u32 Rnum (x * s_scale Rnum s (N * Z.to_nat (i - 1) + k)%nat)%R.
Proof.
  exists 2%nat, scale_witness, 0%nat, 2, 1%R. split; [lia|]. split; [lia|]. split; [reflexivity|].
  cbn [sig_value scale_witness s_in s_scale]. change (Z.to_nat (2 - 1)) with 1%nat. cbn [nth_error Nat.mul Nat.add Nat.eqb Z.ltb Z.compare].
  change (nmul Rnum 1%R 1%R) with (1 * 1)%R. replace (1 * 1)%R with (IZR 1) by lra. replace (1 * 2)%R with (IZR 2) by lra.
  unfold sig_value. cbn [s_in scale_witness]. change (0 <? 2) with true. cbv iota. change (Z.to_nat (2 - 1)) with 1%nat. cbn [nth_error].
  cbn [s_scale scale_witness Nat.eqb]. change (nmul Rnum 1%R 1%R) with (1 * 1)%R. replace (1 * 1)%R with (IZR 1) by lra.
  rewrite !to_u32_Z by lia. discriminate.
Qed.
Lemma scale_first (T : num) (N : nat) (s : sender T) (k : nat) (x : T) : nth_error (s_in T s k) 0 = Some x ->
  sig_value T N s k 1 = to_u32 T (nmul T x (s_scale T s (N * 0 + k)%nat)).
Proof. intros H. unfold sig_value. change (0 <? 1) with true. cbv iota. change (Z.to_nat (1 - 1)) with 0%nat. rewrite H. now rewrite Nat.mul_0_r. Qed.

Lemma recv_scale_wrong : exists (r : receiver Rnum) (v : Z) (r' : receiver Rnum),
  r_scale Rnum r 0 = 2%R /\ dispatch Rnum 1 [{| p_node := 0; p_id := 1; p_nr := 1; p_len := [8%nat]; p_idx := [1] |}] 1 1 [v] r = Ok r' /\ 0 <= v < 256 /\
  nth_error (r_out Rnum r' 0) 0 <> Some (IZR v * r_scale Rnum r 0)%R.
Proof.
  exists {| r_out := fun _ => [0%R]; r_dig := fun _ => []; r_status := fun _ => 0; r_scale := fun _ => 2%R |}, 1.
  eexists. split; [reflexivity|]. split; [cbn; reflexivity|]. split; [lia|].
  cbn. intros H. injection H as H. lra.
Qed.
Lemma recv_scale_one (N : nat) (k : nat) (i v : Z) (r r' : receiver Rnum) : store Rnum N k i v r = Ok r' -> 0 < i ->
  r_scale Rnum r (N * Z.to_nat (i - 1) + k) = 1%R ->
  nth_error (r_out Rnum r' k) (Z.to_nat (i - 1)) = Some (IZR v * r_scale Rnum r (N * Z.to_nat (i - 1) + k))%R.
Proof.
  intros H Hi Hs. rewrite Hs, Rmult_1_r. unfold store in H. destruct (k <? N)%nat; [|discriminate]. cbn [negb] in H.
  destruct (Z.ltb_spec 0 i); [|lia]. destruct (Nat.ltb_spec (Z.to_nat (i - 1)) (length (r_out Rnum r k))); [|discriminate].
  injection H as <-. cbn [r_out]. rewrite upd_same. now rewrite set_nth_same.
Qed.

(** C138 *)
Lemma neg_trunc : Ztrunc (-1 * 1) = -1.
Proof. replace (-1 * 1)%R with (IZR (-1)) by lra. apply Ztrunc_IZR. Qed.
Lemma negative_ub : exists (s : sender Rnum), s_in Rnum s 0%nat = [(-1)%R] /\ s_scale Rnum s 0%nat = 1%R /\
  (forall N garbage, length garbage = 8%nat -> send_run Rnum N s garbage (fun _ => false) = UB) /\
  (forall id g, cansend Rnum 0 [id] [(-1)%R] [1%R] [0%R] g (fun _ => false) = UB).
Proof.
  exists {| s_enabled := true; s_in := fun _ => [(-1)%R]; s_dig := fun _ => []; s_ctrl := fun _ => 0; s_scale := fun _ => 1%R;
            s_pdo := [{| p_node := 0; p_id := 1; p_nr := 1; p_len := [32%nat]; p_idx := [1] |}] |}.
  split; [reflexivity|]. split; [reflexivity|]. split.
  - intros. unfold send_run. cbn [s_enabled s_pdo send_pdos p_node p_len p_idx pack].
    unfold sig_value. change (0 <? 1) with true. cbv iota. change (Z.to_nat (1 - 1)) with 0%nat. cbn [s_in nth_error s_scale].
    unfold to_u32. cbn [nmul ntrunc Rnum]. rewrite neg_trunc. reflexivity.
  - intros. cbn [cansend nth_error]. unfold to_u32. cbn [nmul ntrunc Rnum]. rewrite neg_trunc. reflexivity.
Qed.
Lemma positive_ok (T : num) (N : nat) (s : sender T) (k : nat) (i : Z) (x : T) (z : Z) :
  0 < i -> nth_error (s_in T s k) (Z.to_nat (i - 1)) = Some x -> ntrunc T (nmul T x (s_scale T s k)) = Some z -> 0 <= z < 2 ^ 32 ->
  sig_value T N s k i = Ok z.
Proof.
  intros Hi Hx Hz Hr. unfold sig_value. destruct (Z.ltb_spec 0 i); [|lia]. rewrite Hx. unfold to_u32. rewrite Hz.
  change (2 ^ 32) with 4294967296 in Hr. destruct (Z.leb_spec 0 z); [|lia]. destruct (Z.ltb_spec z 4294967296); [reflexivity|lia].
Qed.

(** C139 *)
Lemma lor_bytes a b : 0 <= b < 256 -> Z.lor (Z.shiftl a 8) b = 256 * a + b.
Proof.
  intros H. assert (L : Z.land (Z.shiftl a 8) b = 0).
  { apply Z.bits_inj'. intros n Hn. rewrite Z.land_spec, Z.bits_0. destruct (Z.ltb_spec n 8).
    - rewrite Z.shiftl_spec_low by lia. reflexivity.
    - rewrite (Z.testbit_eqb b n) by lia.
      rewrite Z.div_small; [apply andb_false_r|]. split; [lia|]. eapply Z.lt_le_trans; [apply H|].
      change 256 with (2 ^ 8). apply Z.pow_le_mono_r; lia. }
  rewrite <- Z.lxor_lor by exact L. rewrite <- Z.add_nocarry_lxor by exact L.
  rewrite Z.shiftl_mul_pow2 by lia. change (2 ^ 8) with 256. lia.
Qed.

Lemma canrecv_spec (T : num) : forall nodes i rx scale angle out,
  canrecv T i nodes rx scale angle = Ok out ->
  length out = length angle /\ (forall k, (k < i)%nat -> nth_error out k = nth_error angle k) /\
  forall k n, nth_error nodes k = Some n -> exists c d sc, nth_error rx k = Some (Some (c, d)) /\ nth_error scale (i + k)%nat = Some sc /\
   nth_error out (i + k)%nat = Some (nmul T (nofZ T (Z.lor (Z.shiftl (nth 7 d 0) 8) (nth 6 d 0))) sc).
Proof.
  induction nodes as [|n0 nodes IH]; intros i rx scale angle out H.
  - cbn in H. injection H as <-. split; [auto|]. split; auto. intros [|k]; discriminate.
  - cbn [canrecv] in H. destruct rx as [|[[c d]|] rx]; try discriminate.
    destruct (nth_error scale i) as [sc|] eqn:Es; [|discriminate].
    destruct (Nat.ltb_spec i (length angle)); [|discriminate].
    apply IH in H. destruct H as (A & B & C). rewrite set_nth_length in A. split; [exact A|]. split.
    + intros k Hk. rewrite B by lia. apply set_nth_other. lia.
    + intros [|k] n Hn.
      * exists c, d, sc. rewrite Nat.add_0_r. split; [reflexivity|]. split; [exact Es|].
        rewrite B by lia. apply set_nth_same. exact H0.
      * cbn in Hn. destruct (C k n Hn) as (c' & d' & sc' & X & Y & Z). exists c', d', sc'.
        replace (i + S k)%nat with (S i + k)%nat by lia. auto.
Qed.
Theorem canrecv_order (T : num) (nodes : list Z) (ident : Z -> Z) (data : Z -> list Z) (scale angle out : list T) :
  (forall n, In n nodes -> 0 <= nth 6 (data n) 0 < 256 /\ 0 <= nth 7 (data n) 0 < 256) ->
  canrecv T 0 nodes (map (fun n => Some (ident n, data n)) nodes) scale angle = Ok out ->
  forall k n, nth_error nodes k = Some n -> exists sc, nth_error scale k = Some sc /\
   nth_error out k = Some (nmul T (nofZ T (256 * nth 7 (data n) 0 + nth 6 (data n) 0)) sc).
Proof.
  intros Hb H k n Hn. apply canrecv_spec in H. destruct H as (_ & _ & H). destruct (H k n Hn) as (c & d & sc & A & B & C).
  rewrite nth_error_map, Hn in A. cbn in A. injection A as <- <-. exists sc. split; [exact B|].
  destruct (Hb n (nth_error_In _ _ Hn)). rewrite lor_bytes in C by assumption. exact C.
Qed.
Lemma canrecv_swapped : exists (nodes : list Z) (data : Z -> list Z) (rx : list (option (Z * list Z))) (out : list Rnum) n k,
  NoDup nodes /\ (forall c d, In (Some (c, d)) rx <-> exists m, In m nodes /\ c = 576 + m /\ d = data m) /\
  canrecv Rnum 0 nodes rx [1%R; 1%R] [0%R; 0%R] = Ok out /\ nth_error nodes k = Some n /\
  nth_error out k <> Some (IZR (256 * nth 7 (data n) 0 + nth 6 (data n) 0)%Z * 1)%R.
Proof.
  pose (data := fun m : Z => [0; 0; 0; 0; 0; 0; m; 0]).
  exists [1; 2], data, [Some (578, data 2); Some (577, data 1)].
  exists [(2 * 1)%R; (1 * 1)%R], 1, 0%nat. split; [|split; [|split; [|split]]].
  - repeat constructor; cbn; lia.
  - intros c d. cbn. split.
    + intros [H|[H|[]]]; injection H as <- <-; [exists 2|exists 1]; auto.
    + intros (m & [<-|[<-|[]]] & -> & ->); auto.
  - reflexivity.
  - reflexivity.
  - cbn. intros H. injection H as H. lra.
Qed.

(** C140 *)
Theorem cansend_frames (T : num) (g : Z) : forall nodes i inp scale speed,
  (forall k n, nth_error nodes k = Some n -> exists x sc sp z v, nth_error inp (i + k)%nat = Some x /\ nth_error scale (i + k)%nat = Some sc /\ nth_error speed (i + k)%nat = Some sp /\
    ntrunc T (nmul T x sc) = Some z /\ 0 <= z < 2 ^ 32 /\ ntrunc T sp = Some v /\ 0 <= v < 2 ^ 16) ->
  exists fs, cansend T i nodes inp scale speed g (fun _ => false) = Ok fs /\ length fs = length nodes /\
   forall k n, nth_error nodes k = Some n -> exists d x sc sp z v, nth_error fs k = Some (320 + n, d) /\ length d = 8%nat /\ nth 0 d 0 = 165 /\
     nth_error inp (i + k)%nat = Some x /\ nth_error scale (i + k)%nat = Some sc /\ nth_error speed (i + k)%nat = Some sp /\
     ntrunc T (nmul T x sc) = Some z /\ ntrunc T sp = Some v /\
     nth 2 d 0 + 256 * nth 3 d 0 = v /\ nth 4 d 0 + 256 * nth 5 d 0 + 65536 * nth 6 d 0 + 16777216 * nth 7 d 0 = z.
Proof.
  induction nodes as [|n0 nodes IH]; intros i inp scale speed H.
  - exists []. split; [reflexivity|]. split; [reflexivity|]. intros [|k]; discriminate.
  - destruct (H 0%nat n0 eq_refl) as (x & sc & sp & z & v & Hx & Hsc & Hsp & Hz & Hzr & Hv & Hvr).
    rewrite Nat.add_0_r in Hx, Hsc, Hsp.
    destruct (IH (S i) inp scale speed) as (fs & E & L & F).
    { intros k n Hn. replace (S i + k)%nat with (i + S k)%nat by lia. apply (H (S k) n Hn). }
    cbn [cansend]. rewrite Hx, Hsc, Hsp. unfold to_u32, to_u16. rewrite Hz, Hv.
    change (2 ^ 32) with 4294967296 in Hzr. change (2 ^ 16) with 65536 in Hvr.
    destruct (Z.leb_spec 0 z); [|lia]. destruct (Z.ltb_spec z 4294967296); [|lia].
    destruct (Z.leb_spec 0 v); [|lia]. destruct (Z.ltb_spec v 65536); [|lia]. cbn [andb bind]. rewrite E. cbn [omap bind].
    eexists. split; [reflexivity|]. split; [cbn; congruence|].
    intros [|k] n Hn.
    + cbn in Hn. injection Hn as <-. eexists. exists x, sc, sp, z, v. rewrite Nat.add_0_r.
      split; [reflexivity|]. split; [reflexivity|]. split; [reflexivity|].
      split; [exact Hx|]. split; [exact Hsc|]. split; [exact Hsp|]. split; [exact Hz|]. split; [exact Hv|].
      cbn [le_bytes app nth]. split.
      * rewrite (Z.mod_small (v / 256)) by (split; [apply Z.div_pos; lia|apply Z.div_lt_upper_bound; lia]).
        pose proof (Z.div_mod v 256 ltac:(lia)). lia.
      * pose proof (Z.div_mod z 256 ltac:(lia)). pose proof (Z.div_mod (z / 256) 256 ltac:(lia)).
        pose proof (Z.div_mod (z / 256 / 256) 256 ltac:(lia)).
        rewrite (Z.mod_small (z / 256 / 256 / 256)).
        2:{ rewrite !Z.div_div by lia. split; [apply Z.div_pos; lia|apply Z.div_lt_upper_bound; lia]. }
        lia.
    + cbn in Hn. destruct (F k n Hn) as (d & x' & sc' & sp' & z' & v' & G). exists d, x', sc', sp', z', v'.
      replace (i + S k)%nat with (S i + k)%nat by lia. exact G.
Qed.
Lemma cansend_direction : exists (g1 g2 : Z) (nodes : list Z) (inp scale speed : list Rnum) fs1 fs2,
  cansend Rnum 0 nodes inp scale speed g1 (fun _ => false) = Ok fs1 /\
  cansend Rnum 0 nodes inp scale speed g2 (fun _ => false) = Ok fs2 /\ fs1 <> fs2.
Proof.
  exists 0, 1, [1], [0%R], [1%R], [0%R], [(321, [165; 0; 0; 0; 0; 0; 0; 0])], [(321, [165; 1; 0; 0; 0; 0; 0; 0])].
  assert (E : forall g, cansend Rnum 0 [1] [0%R] [1%R] [0%R] g (fun _ => false) = Ok [(321, [165; g; 0; 0; 0; 0; 0; 0])]).
  { intros g. cbn [cansend nth_error]. change (nmul Rnum 0%R 1%R) with (0 * 1)%R. rewrite Rmult_0_l.
    rewrite (to_u32_Z 0) by lia. unfold to_u16. cbn [ntrunc Rnum]. rewrite (Ztrunc_IZR 0). reflexivity. }
  rewrite !E. split; [reflexivity|]. split; [reflexivity|]. discriminate.
Qed.

(** C141 *)
Lemma dispatch_unregistered (T : num) (N : nat) ps id nr data r :
  (forall p, In p ps -> ~ (p_id p = id /\ p_nr p = nr)) -> dispatch T N ps id nr data r = Ok r.
Proof.
  induction ps as [|p ps IH]; intros H; [reflexivity|]. cbn [dispatch].
  assert ((id =? p_id p) && (nr =? p_nr p) = false) as ->.
  { destruct (Z.eqb_spec id (p_id p)); [|reflexivity]. destruct (Z.eqb_spec nr (p_nr p)); [|reflexivity].
    exfalso. apply (H p (or_introl eq_refl)). auto. }
  cbn [bind]. apply IH. intros q Hq. apply H. now right.
Qed.
Theorem recv_unregistered (T : num) (N : nat) (enabled : bool) (ps : list pdo) rx (r : receiver T) :
  (enabled = false \/ forall id nr data, In (Some (id, nr, data)) rx -> forall p, In p ps -> ~ (p_id p = id /\ p_nr p = nr)) ->
  recv_run T N enabled ps rx r = Ok r.
Proof.
  intros [->|H]; [reflexivity|]. unfold recv_run. destruct enabled; [|reflexivity].
  induction rx as [|[[[id nr] data]|] rx IH]; cbn [recv_loop]; [reflexivity| |].
  - rewrite dispatch_unregistered by (apply (H id nr data); now left). cbn [bind]. apply IH. intros. eapply H; [right; eassumption|eassumption].
  - apply IH. intros. eapply H; [right; eassumption|eassumption].
Qed.
Lemma unpack_noub (T : num) (N : nat) k data : forall lens idx start (r : receiver T),
  (start + bytes_of lens <= length data)%nat -> (forall l, In l lens -> (l / 8 <= 4)%nat) -> (length lens <= length idx)%nat ->
  unpack T N k lens idx start data r <> UB.
Proof.
  induction lens as [|l lens IH]; intros idx start r H1 H2 H3; [discriminate|].
  assert (Hb : bytes_of (l :: lens) = (l / 8 + bytes_of lens)%nat) by reflexivity.
  cbn [unpack]. unfold decode. rewrite (proj2 (Nat.leb_le _ _) (H2 l (or_introl eq_refl))). cbn [andb].
  rewrite (proj2 (Nat.leb_le (start + l / 8) (length data))) by lia. cbn [bind].
  destruct idx as [|i idx]; [cbn in H3; lia|].
  assert (Hs : forall v, store T N k i v r <> UB).
  { intros v. unfold store. destruct (k <? N)%nat; cbn [negb]; [|discriminate].
    destruct (0 <? i); [destruct (_ <? _)%nat; discriminate|]. destruct (i <? 0); [destruct (_ <? _)%nat; discriminate|discriminate]. }
  match goal with |- bind (store T N k i ?v r) _ <> _ => specialize (Hs v); destruct (store T N k i v r) end; cbn [bind]; try discriminate; try congruence.
  apply IH; [lia| |cbn in H3; lia]. intros; apply H2; now right.
Qed.
Theorem recv_noub (T : num) (N : nat) (enabled : bool) (ps : list pdo) rx (r : receiver T) :
  (forall p, In p ps -> (forall l, In l (p_len p) -> (l / 8 <= 4)%nat) /\ (length (p_len p) <= length (p_idx p))%nat /\
    forall data, In (Some (p_id p, p_nr p, data)) rx -> (bytes_of (p_len p) <= length data)%nat) ->
  recv_run T N enabled ps rx r <> UB.
Proof.
  intros H. unfold recv_run. destruct enabled; [|discriminate]. revert r H.
  induction rx as [|[[[id nr] data]|] rx IH]; intros r H; cbn [recv_loop]; [discriminate| |].
  - assert (Hd : forall qs r, (forall q, In q qs -> In q ps) -> dispatch T N qs id nr data r <> UB).
    { induction qs as [|q qs IHq]; intros r0 Hq; [discriminate|]. cbn [dispatch].
      destruct ((id =? p_id q) && (nr =? p_nr q)) eqn:E.
      - apply andb_prop in E as [E1 E2]. apply Z.eqb_eq in E1, E2. subst id nr.
        destruct (H q (Hq q (or_introl eq_refl))) as (A & B & C).
        pose proof (unpack_noub T N (p_node q) data (p_len q) (p_idx q) 0 r0 (C data (or_introl eq_refl)) A B) as U.
        destruct (unpack T N (p_node q) (p_len q) (p_idx q) 0 data r0); cbn [bind]; try discriminate; try congruence.
        apply IHq. intros; apply Hq; now right.
      - cbn [bind]. apply IHq. intros; apply Hq; now right. }
    specialize (Hd ps r (fun q h => h)). destruct (dispatch T N ps id nr data r); cbn [bind]; try discriminate; try congruence.
    apply IH. intros p Hp. destruct (H p Hp) as (A & B & C). split; [exact A|]. split; [exact B|]. intros d Hin. apply C. now right.
  - apply IH. intros p Hp. destruct (H p Hp) as (A & B & C). split; [exact A|]. split; [exact B|]. intros d Hin. apply C. now right.
Qed.
Lemma recv_short : exists (ps : list pdo) (data : list Z) (r : receiver Rnum),
  ps = configure [1] [] 1 1 [16%nat; 32%nat] [0; 1] /\ length data = 2%nat /\ length (r_out Rnum r 0) = 1%nat /\
  recv_run Rnum 1 true ps [Some (1, 1, data)] r = UB.
Proof.
  exists (configure [1] [] 1 1 [16%nat; 32%nat] [0; 1]), [0; 0],
    {| r_out := fun _ => [0%R]; r_dig := fun _ => []; r_status := fun _ => 0; r_scale := fun _ => 1%R |}.
  split; [reflexivity|]. split; [reflexivity|]. split; [reflexivity|]. reflexivity.
Qed.

(** C136 *)
Lemma send_overrun : exists (s : sender Rnum), s_pdo Rnum s = configure [1] [] 1 1 [32%nat; 32%nat; 32%nat] [0; -1; -2] /\
  s_dig Rnum s 0%nat = [7; 8] /\ forall garbage, length garbage = 8%nat -> send_run Rnum 1 s garbage (fun _ => false) = UB.
Proof.
  exists {| s_enabled := true; s_in := fun _ => []; s_dig := fun _ => [7; 8]; s_ctrl := fun _ => 0; s_scale := fun _ => 1%R;
            s_pdo := configure [1] [] 1 1 [32%nat; 32%nat; 32%nat] [0; -1; -2] |}.
  split; [reflexivity|]. split; [reflexivity|].
  intros g Hg. do 8 (destruct g as [|? g]; [discriminate|]). destruct g; [|discriminate]. reflexivity.
Qed.

(** C142 *)
Lemma el1008_bits val i : (i < 8)%nat -> nth_error (el1008_run val) i = Some (Z.testbit val (Z.of_nat i)).
Proof.
  intros H. unfold el1008_run. rewrite nth_error_map.
  assert (nth_error (seq 0 8) i = Some i) as -> by (do 8 (destruct i as [|i]; [reflexivity|]); lia).
  cbn [option_map]. f_equal. rewrite Z.shiftl_1_l. destruct (Z.testbit val (Z.of_nat i)) eqn:E.
  - destruct (Z.eqb_spec (Z.land val (2 ^ Z.of_nat i)) 0); [exfalso|reflexivity].
    assert (B : Z.testbit (Z.land val (2 ^ Z.of_nat i)) (Z.of_nat i) = false) by (rewrite e; apply Z.bits_0).
    rewrite Z.land_spec, E, Z.pow2_bits_true in B by lia. discriminate.
  - assert (Z.land val (2 ^ Z.of_nat i) = 0) as ->; [|reflexivity].
    apply Z.bits_inj'. intros n Hn. rewrite Z.land_spec, Z.bits_0.
    destruct (Z.eq_dec n (Z.of_nat i)) as [->|Hne]; [now rewrite E|]. rewrite Z.pow2_bits_false by lia. apply andb_false_r.
Qed.
Lemma el2008_loop_spec : forall ins i val n, 0 <= n ->
  Z.testbit (el2008_loop i ins val) n =
    if (Z.of_nat i <=? n) && (n <? Z.of_nat (i + length ins)) then nth (Z.to_nat n - i) ins false else Z.testbit val n.
Proof.
  induction ins as [|b ins IH]; intros i val n Hn.
  - cbn [el2008_loop length]. destruct (Z.leb_spec (Z.of_nat i) n), (Z.ltb_spec n (Z.of_nat (i + 0))); cbn; try reflexivity; lia.
  - cbn [el2008_loop]. rewrite IH by assumption. cbn [length]. rewrite Z.shiftl_1_l.
    destruct (Z.eq_dec n (Z.of_nat i)) as [->|Hne].
    + destruct (Z.leb_spec (Z.of_nat (S i)) (Z.of_nat i)); [lia|]. destruct (Z.leb_spec (Z.of_nat i) (Z.of_nat i)); [|lia].
      destruct (Z.ltb_spec (Z.of_nat i) (Z.of_nat (i + S (length ins)))); [|lia]. cbn [andb].
      rewrite Nat2Z.id, Nat.sub_diag. cbn [nth]. destruct b.
      * rewrite Z.lor_spec, Z.pow2_bits_true by lia. apply orb_true_r.
      * rewrite Z.land_spec, Z.lnot_spec, Z.pow2_bits_true by lia. apply andb_false_r.
    + assert (Z.testbit (if b then Z.lor val (2 ^ Z.of_nat i) else Z.land val (Z.lnot (2 ^ Z.of_nat i))) n = Z.testbit val n) as ->.
      { destruct b; [rewrite Z.lor_spec, Z.pow2_bits_false by lia; apply orb_false_r|].
        rewrite Z.land_spec, Z.lnot_spec, Z.pow2_bits_false by lia. apply andb_true_r. }
      destruct (Z.leb_spec (Z.of_nat (S i)) n), (Z.leb_spec (Z.of_nat i) n); cbn [andb]; try reflexivity; try lia.
      replace (i + S (length ins))%nat with (S i + length ins)%nat by lia.
      destruct (Z.ltb_spec n (Z.of_nat (S i + length ins))); [|reflexivity].
      replace (Z.to_nat n - i)%nat with (S (Z.to_nat n - S i)) by lia. reflexivity.
Qed.
Theorem el2008_bits (v : Z) (ins : list bool) : length ins = 8%nat ->
  exists w, el2008_run (Some v) ins = Ok w /\
   (forall i, (i < 8)%nat -> nth_error ins i = Some (Z.testbit w (Z.of_nat i))) /\ (forall n, 8 <= n -> Z.testbit w n = Z.testbit v n).
Proof.
  intros H. exists (el2008_loop 0 ins v). split; [destruct ins; [discriminate|reflexivity]|]. split.
  - intros i Hi. rewrite el2008_loop_spec by lia. destruct (Z.leb_spec (Z.of_nat 0) (Z.of_nat i)); [|lia].
    destruct (Z.ltb_spec (Z.of_nat i) (Z.of_nat (0 + length ins))); [|lia]. cbn [andb]. rewrite Nat2Z.id, Nat.sub_0_r.
    apply nth_error_nth'. lia.
  - intros n Hn. rewrite el2008_loop_spec by lia. destruct (Z.ltb_spec n (Z.of_nat (0 + length ins))); [lia|]. now rewrite andb_false_r.
Qed.
Lemma el2008_undefined : forall ins, length ins = 8%nat -> el2008 ins = UB.
Proof. intros [|b ins] H; [discriminate|reflexivity]. Qed.
Lemma el2008_undefined_ex : exists ins, length ins = 8%nat /\ el2008 ins = UB.
Proof. exists (repeat true 8). split; reflexivity. Qed.
