(** Proofs about the socket peers. *)
From Verif Require Import Prelude SockModel SockSpec.

Lemma put_at (a c : cells) bs : length bs <= length c -> put (a ++ c) (length a) bs = a ++ whole bs ++ skipn (length bs) c.
Proof.
  induction a as [|x a IH]; intros H; cbn [app length put].
  - revert bs H. induction c as [|y c IHc]; intros bs H.
    + destruct bs; [reflexivity|cbn in H; lia].
    + destruct bs as [|b bs]; [reflexivity|]. cbn [put whole map app length skipn]. f_equal. apply IHc. cbn in H. lia.
  - now rewrite IH.
Qed.
Lemma firstn_split {A} (l : list A) n m : n <= m -> firstn n l ++ firstn (m - n) (skipn n l) = firstn m l.
Proof.
  revert l m. induction n as [|n IH]; intros l m H; [cbn; now rewrite Nat.sub_0_r|].
  destruct l as [|x l]; [cbn [skipn]; now rewrite !firstn_nil|]. destruct m as [|m]; [lia|]. cbn [Nat.sub firstn skipn app]. f_equal. apply IH. lia.
Qed.
Lemma skipn_skipn' {A} (l : list A) n m : skipn n (skipn m l) = skipn (m + n) l.
Proof. revert l. induction m as [|m IH]; intros l; [reflexivity|]. destruct l; [now rewrite !skipn_nil|]. cbn [skipn Nat.add]. apply IH. Qed.

(** Reading a frame: whatever the sizes of the pieces. *)
Lemma read_frame evs : forall stream (a c : cells), Forall delivers evs -> length c <= length evs -> length c <= length stream ->
  exists evs', read_loop evs stream (a ++ c) (length a) (length c) true = Done (a ++ whole (firstn (length c) stream), skipn (length c) stream, evs', true)
    /\ Forall delivers evs' /\ length evs <= length evs' + length c.
Proof.
  induction evs as [|e evs IH]; intros stream a c F L S.
  - destruct c; [|cbn in L; lia]. exists []. cbn. split; [reflexivity|]. auto.
  - destruct (Nat.eq_dec (length c) 0) as [Z|Z].
    + exists (e :: evs). destruct c; [|discriminate]. cbn. split; [reflexivity|]. split; [exact F|lia].
    + inversion F as [|e' evs' Fe F']; subst e' evs'. destruct Fe as (Fl & size & Fa & Fs).
      cbn [read_loop]. replace (length c =? 0) with false by (symmetry; apply Nat.eqb_neq; lia). cbn [andb negb]. rewrite Fa, Fl. cbn [negb].
      set (n := min size (length c)). assert (Ln : length (firstn n stream) = n) by (rewrite firstn_length; subst n; lia). rewrite Ln.
      assert (Hn : 0 < n <= length c) by (subst n; lia).
      rewrite put_at by (rewrite Ln; lia). rewrite Ln.
      assert (Lw : length (a ++ whole (firstn n stream)) = length a + n) by (unfold whole; rewrite app_length, map_length, Ln; reflexivity).
      assert (Ls : length (skipn n c) = length c - n) by apply skipn_length.
      rewrite app_assoc. rewrite <- Lw, <- Ls. cbn [length] in L.
      destruct (IH (skipn n stream) (a ++ whole (firstn n stream)) (skipn n c) F') as (evs' & E & F2 & L2); [rewrite Ls; lia|rewrite Ls, skipn_length; lia|].
      rewrite Ls in L2, E. rewrite Ls. exists evs'. rewrite E. split; [|split; [exact F2|cbn [length]; lia]]. f_equal. f_equal. f_equal. f_equal.
      * rewrite <- app_assoc. f_equal. unfold whole. rewrite <- map_app. f_equal. apply firstn_split. lia.
      * rewrite skipn_skipn'. f_equal. lia.
Qed.
Lemma cycle_frame n evs stream buf : length buf = n -> Forall delivers evs -> n <= length evs -> n <= length stream ->
  exists evs', cycle n true evs stream buf = Done (whole (firstn n stream), skipn n stream, evs', true) /\ Forall delivers evs' /\ length evs <= length evs' + n.
Proof. intros <- F L S. destruct (read_frame evs stream [] buf F L S) as (evs' & E & F' & L'). exists evs'. unfold cycle. cbn [app length] in E. auto. Qed.
Lemma cycles_frames n k : forall evs stream buf, length buf = n -> Forall delivers evs -> k * n <= length evs -> k * n <= length stream ->
  exists evs', cycles k n evs stream buf = Done (map whole (frames k n stream), skipn (k * n) stream, evs').
Proof.
  induction k as [|k IH]; intros evs stream buf Lb F Le Ls; [exists evs; reflexivity|]. cbn [Nat.mul] in Le, Ls.
  destruct (cycle_frame n evs stream buf Lb F) as (evs1 & E & F1 & L1); [lia|lia|]. cbn [cycles frames map]. rewrite E.
  destruct (IH evs1 (skipn n stream) (whole (firstn n stream))) as (evs2 & E2).
  - unfold whole. rewrite map_length, firstn_length. lia.
  - exact F1. - lia. - rewrite skipn_length. lia.
  - rewrite E2. exists evs2. cbn [Nat.mul]. now rewrite skipn_skipn'.
Qed.

(** Connection loss. *)
Lemma lost n ws : forall evs stream buf pubs s, connection n ws evs stream buf = Done (pubs, s) -> last pubs [] = repeat (Some 0%Z) n.
Proof.
  induction ws as [|w ws IH]; intros evs stream buf pubs s H; cbn [connection] in H; [discriminate|].
  destruct (cycle n w evs stream buf) as [[[[b1 s1] e1] c1]|]; [|discriminate]. destruct c1.
  - destruct (connection n ws e1 s1 b1) as [[p s2]|] eqn:E; [|discriminate]. injection H as <- <-. specialize (IH _ _ _ _ _ E). destruct p as [|x p]; [|exact IH].
    cbn in IH. cbn [last]. destruct ws as [|w' ws]; [discriminate|]. cbn [connection] in E. destruct (cycle n w' e1 s1 b1) as [[[[b2 s3] e2] c2]|]; [|discriminate]. destruct c2; [|discriminate]. destruct (connection n ws e2 s3 b2) as [[p' s4]|]; discriminate.
  - injection H as <- <-. reflexivity.
Qed.
(** What a loop leaves behind, for all answers of the environment. *)
Lemma read_any evs : forall stream (a c : cells) b s e conn, read_loop evs stream (a ++ c) (length a) (length c) true = Done (b, s, e, conn) ->
  exists m, m <= length c /\ m <= length stream /\ b = a ++ whole (firstn m stream) ++ skipn m c /\ s = skipn m stream /\ (conn = true -> m = length c).
Proof.
  induction evs as [|ev evs IH]; intros stream a c b s e conn H; cbn [read_loop] in H.
  - destruct (Nat.eqb_spec (length c) 0) as [Z|Z]; [|discriminate]. injection H as <- <- <- <-. exists 0. cbn. repeat split; try lia.
  - destruct (Nat.eqb_spec (length c) 0) as [Z|Z]; [injection H as <- <- <- <-; exists 0; cbn; repeat split; lia|]. cbn [andb negb] in H.
    assert (Fin : forall a' c' stream', read_loop evs stream' (a' ++ c') (length a') (length c') false = Done (a' ++ c', stream', evs, false)) by (intros; destruct evs; reflexivity).
    destruct (ev_answer ev) as [size| |].
    + set (bs := firstn (min size (length c)) stream) in H. assert (Lb : length bs = min (min size (length c)) (length stream)) by apply firstn_length.
      rewrite put_at in H by lia.
      assert (Lw : length (a ++ whole bs) = length a + length bs) by (unfold whole; rewrite app_length, map_length; reflexivity).
      assert (Ls : length (skipn (length bs) c) = length c - length bs) by apply skipn_length.
      rewrite app_assoc, <- Lw, <- Ls in H.
      assert (Sk : skipn (min size (length c)) stream = skipn (length bs) stream).
      { rewrite Lb. destruct (Nat.le_ge_cases (min size (length c)) (length stream)); [now rewrite (Nat.min_l _ (length stream)) by lia|]. rewrite (Nat.min_r _ (length stream)) by lia. rewrite !skipn_all2; [reflexivity|lia|lia]. }
      assert (Bs : bs = firstn (length bs) stream).
      { unfold bs at 1. rewrite Lb. destruct (Nat.le_ge_cases (min size (length c)) (length stream)); [now rewrite (Nat.min_l _ (length stream)) by lia|]. rewrite (Nat.min_r _ (length stream)) by lia. rewrite !firstn_all2; [reflexivity|lia|lia]. }
      rewrite Sk in H. destruct (ev_late ev); cbn [negb] in H.
      * rewrite Fin in H. injection H as <- <- <- <-. exists (length bs). repeat split; try lia; try discriminate. rewrite <- app_assoc, <- Bs. reflexivity.
      * apply IH in H. destruct H as (m & Hm & Hs & -> & -> & Hc). rewrite skipn_length in Hm, Hs, Hc. exists (length bs + m).
        assert (Wh : forall x y, whole (x ++ y) = whole x ++ whole y) by (intros; apply map_app).
        repeat split; try lia.
        -- rewrite <- app_assoc. f_equal. rewrite app_assoc. f_equal; [|rewrite skipn_skipn'; reflexivity]. rewrite Bs at 1. rewrite <- Wh. f_equal.
           replace m with (length bs + m - length bs) at 1 by lia. apply firstn_split. lia.
        -- rewrite skipn_skipn'. reflexivity.
        -- intros K. specialize (Hc K). lia.
    + destruct (ev_late ev); cbn [negb] in H; [rewrite Fin in H; injection H as <- <- <- <-; exists 0; cbn; repeat split; try lia; discriminate|]. now apply (IH stream a c b s e conn).
    + injection H as <- <- <- <-. exists 0. cbn. repeat split; try lia; discriminate.
Qed.
Lemma cycle_any n evs stream buf b s e conn : length buf = n -> cycle n true evs stream buf = Done (b, s, e, conn) ->
  exists m, m <= n /\ m <= length stream /\ b = whole (firstn m stream) ++ skipn m buf /\ s = skipn m stream /\ (conn = true -> m = n).
Proof. intros <- H. apply (read_any evs stream [] buf) in H. exact H. Qed.
(** Everything published while the connection stands is the next frame; then a torn frame; then zero. *)
Lemma connection_any n ws : forall evs stream buf pubs s, length buf = n -> connection n ws evs stream buf = Done (pubs, s) ->
  exists k m, k * n + m <= length stream /\ m <= n /\ s = skipn (k * n + m) stream /\
    pubs = map whole (frames k n stream) ++ [whole (firstn m (skipn (k * n) stream)) ++ skipn m (last (buf :: map whole (frames k n stream)) []); repeat (Some 0%Z) n].
Proof.
  induction ws as [|w ws IH]; intros evs stream buf pubs s Lb H; cbn [connection] in H; [discriminate|].
  destruct (cycle n w evs stream buf) as [[[[b1 s1] e1] c1]|] eqn:E; [|discriminate]. destruct w.
  - apply cycle_any in E; [|exact Lb]. destruct E as (m & Hm & Hs & -> & -> & Hc). destruct c1.
    + rewrite (Hc eq_refl) in *. clear Hc Hm. destruct (connection n ws e1 (skipn n stream) _) as [[p s2]|] eqn:E2; [|discriminate]. injection H as <- <-.
      rewrite (skipn_all2 buf) in E2 by lia. rewrite app_nil_r in E2. apply IH in E2; [|unfold whole; rewrite map_length, firstn_length; lia].
      destruct E2 as (k & m2 & A & B & -> & ->). exists (S k), m2. rewrite skipn_length in A. cbn [Nat.mul frames map app]. split; [lia|]. split; [exact B|]. split; [rewrite skipn_skipn'; f_equal; lia|].
      rewrite (skipn_all2 buf) by lia. rewrite app_nil_r. f_equal. rewrite skipn_skipn'. f_equal.
    + injection H as <- <-. exists 0, m. cbn. repeat split; try lia.
  - unfold cycle in E. destruct evs; cbn in E; injection E as <- <- <- <-; injection H as <- <-; exists 0, 0; cbn; repeat split; lia.
Qed.
Lemma torn : connection 2 [true; true] [{| ev_late := false; ev_answer := Got 9 |}; {| ev_late := false; ev_answer := Got 1 |}; {| ev_late := false; ev_answer := Failed |}] [1; 2; 3]%Z (fresh 2) =
  Done ([[Some 1; Some 2]; [Some 3; Some 2]; [Some 0; Some 0]]%Z, []).
Proof. reflexivity. Qed.
Lemma torn_first : connection 2 [true] [{| ev_late := false; ev_answer := Got 1 |}; {| ev_late := false; ev_answer := Failed |}] [1; 2]%Z (fresh 2) = Done ([[Some 1; None]; [Some 0; Some 0]]%Z, [2%Z]).
Proof. reflexivity. Qed.

(** Time out. *)
Lemma silent_peer stream buf pos count : 0 < count -> read_loop [] stream buf pos count true = Blocked.
Proof. intros H. cbn. destruct (Nat.eqb_spec count 0); [lia|reflexivity]. Qed.
Lemma late_ends e evs stream buf pos count : 0 < count -> ev_late e = true -> exists b s e', read_loop (e :: evs) stream buf pos count true = Done (b, s, e', false).
Proof.
  intros H L. cbn [read_loop]. destruct (Nat.eqb_spec count 0); [lia|]. cbn [andb negb]. rewrite L. cbn [negb].
  destruct (ev_answer e); [destruct evs; cbn; eauto|destruct evs; cbn; eauto|eauto].
Qed.

(** From one peer to the other. *)
Lemma send_whole fs n : Forall (fun p => n <= fst p /\ length (snd p) = n) fs -> send_frames fs = concat (map snd fs).
Proof. induction 1 as [|[a f] fs [Ha Hf] F IH]; [reflexivity|]. cbn [send_frames map snd concat] in *. unfold send_frame. rewrite firstn_all2 by (cbn in *; lia). now rewrite IH. Qed.
Lemma frames_concat n fs rest : Forall (fun f => length f = n) fs -> frames (length fs) n (concat fs ++ rest) = fs.
Proof.
  induction 1 as [|f fs Hf F IH]; [reflexivity|]. cbn [length frames concat]. rewrite <- app_assoc. rewrite firstn_app, Hf, Nat.sub_diag, (firstn_all2 f) by lia. cbn [firstn]. rewrite app_nil_r.
  rewrite skipn_app, Hf, Nat.sub_diag, (skipn_all2 f) by lia. cbn [skipn app]. now rewrite IH.
Qed.
Lemma concat_len n (fs : list (list byte)) : Forall (fun f => length f = n) fs -> length (concat fs) = length fs * n.
Proof. induction 1 as [|f fs Hf F IH]; [reflexivity|]. cbn. rewrite app_length. lia. Qed.
Lemma end_to_end n fs evs : Forall (fun p => n <= fst p /\ length (snd p) = n) fs -> Forall delivers evs -> length fs * n <= length evs ->
  exists evs', cycles (length fs) n evs (send_frames fs) (fresh n) = Done (map whole (map snd fs), [], evs').
Proof.
  intros F D L. assert (F' : Forall (fun f => length f = n) (map snd fs)) by (apply Forall_forall; intros f Hf; apply in_map_iff in Hf; destruct Hf as (p & <- & Hp); rewrite Forall_forall in F; now apply F).
  rewrite (send_whole fs n F). pose proof (concat_len n _ F') as C. rewrite map_length in C.
  destruct (cycles_frames n (length fs) evs (concat (map snd fs)) (fresh n)) as (evs' & E); [apply repeat_length|exact D|exact L|lia|].
  exists evs'. rewrite E. rewrite skipn_all2 by lia. pose proof (frames_concat n (map snd fs) [] F') as G. rewrite map_length, app_nil_r in G. now rewrite G.
Qed.
Definition one_piece : event := {| ev_late := false; ev_answer := Got 100 |}.
Lemma short_write : cycles 1 2 [one_piece; one_piece] (send_frames [(1, [1; 2]%Z); (2, [3; 4]%Z)]) (fresh 2) = Done ([[Some 1; Some 3]]%Z, [4%Z], [one_piece]).
Proof. reflexivity. Qed.

(** The block. *)
Lemma copy_quiet rx new : forall k i out, copy_race (repeat true k) rx new out i 0 = out ++ map (fun j => nth j rx 0%Z) (seq i k).
Proof. induction k as [|k IH]; intros i out; cbn [repeat copy_race seq map]; [now rewrite app_nil_r|]. rewrite IH. now rewrite <- app_assoc. Qed.
Lemma nth_seq (rx : list byte) : map (fun j => nth j rx 0%Z) (seq 0 (length rx)) = rx.
Proof.
  induction rx as [|x rx IH]; [reflexivity|]. cbn [length seq map nth]. f_equal. rewrite <- seq_shift, map_map. exact IH.
Qed.
Lemma copy_ok rx new : copy_race (repeat true (length rx)) rx new [] 0 0 = rx.
Proof. rewrite copy_quiet. apply nth_seq. Qed.
Lemma torn_ne1 : [3; 2]%Z <> [1; 2]%Z.
Proof. discriminate. Qed.
Lemma torn_ne2 : [3; 2]%Z <> [3; 4]%Z.
Proof. discriminate. Qed.
Lemma pieces_deliver : Forall delivers [one_piece; one_piece].
Proof. repeat constructor; exists 100; split; [reflexivity|lia|reflexivity|lia]. Qed.

(** After a connection the receive buffer holds zeros. *)
Lemma ends_cleared n : forall ws evs stream buf pubs s, connection n ws evs stream buf = Done (pubs, s) ->
  exists l b, pubs = l ++ [b; repeat (Some 0%Z) n].
Proof.
  induction ws as [|w ws IH]; intros evs stream buf pubs s E; cbn [connection] in E; [discriminate|].
  destruct (cycle n w evs stream buf) as [[[[b st] ev] [|]]|]; try discriminate.
  - destruct (connection n ws ev st b) as [[ps st2]|] eqn:C; [|discriminate]. injection E as <- <-.
    destruct (IH _ _ _ _ _ C) as (l & c & ->). now exists (b :: l), c.
  - injection E as <- <-. now exists [], b.
Qed.
