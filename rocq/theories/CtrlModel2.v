(** Model of further control blocks: Delay, Trace, WrapAround, Switch, SignalChecker, Step,
    PeripheralOutput, LowPassFilter, MovingAverageFilter, MedianFilter, Transition.
    Same conventions as [CtrlModel]. *)
From Coq Require Import Reals Floats.SpecFloat Sorting.Permutation.
From Verif Require Import Prelude Num CtrlModel.
Open Scope Z_scope.

(** ** Delay.hpp *)
Section Delay.
  Context {T : Type}.
  (** Members 75-79; the buffers for values and time stamps are one buffer of signals. *)
  Record delay := { dl_len : nat; dl_idx : nat; dl_cycle : bool; dl_buf : nat -> signal T }.
  Definition dl_init (n : nat) (junk : nat -> signal T) : delay :=
    {| dl_len := n; dl_idx := 0; dl_cycle := false; dl_buf := junk |}.
  (** Delay.hpp:52-64; None: the output is not written. *)
  Definition dl_run (s : delay) (i : signal T) : delay * option (signal T) :=
    let buf := upd (dl_buf s) (dl_idx s) i in
    let idx := S (dl_idx s) in
    let wrap := Nat.eqb idx (dl_len s) in
    let idx' := if wrap then 0%nat else idx in
    let cyc := if wrap then true else dl_cycle s in
    ({| dl_len := dl_len s; dl_idx := idx'; dl_cycle := cyc; dl_buf := buf |},
     if cyc then Some (buf idx') else None).
  Fixpoint dl_runs (s : delay) (is : list (signal T)) : list (option (signal T)) :=
    match is with
    | [] => []
    | i :: is' => let (s', o) := dl_run s i in o :: dl_runs s' is'
    end.
End Delay.
Arguments delay : clear implicits.

(** Delay.hpp:30-31: bufLen(delay / ts), a conversion of double to uint32_t (undefined when the
    truncated value does not fit). *)
Definition dl_length (N : num) (delay ts : N) : outcome nat :=
  match ntrunc N (ndiv N delay ts) with
  | None => UB
  | Some z => if (z <? 0) || (2 ^ 32 <=? z) then UB else if z <? 1 then Fault else Ok (Z.to_nat z)
  end.

(** ** Trace.hpp *)
Section Trace.
  Context {T : Type}.
  Record trace := { tr_len : nat; tr_idx : nat; tr_cycle : bool; tr_run : bool; tr_buf : nat -> signal T }.
  (** Trace.hpp:20-23, 85-91 *)
  Definition tr_new (n : nat) (junk : nat -> signal T) : trace :=
    {| tr_len := n; tr_idx := 0; tr_cycle := false; tr_run := false; tr_buf := junk |}.
  Inductive tr_op := TrRun (i : signal T) | TrEnable (b : bool).
  (** Trace.hpp:38-48, 80-81; with length 0 the first write is out of bounds. *)
  Definition tr_step (s : trace) (o : tr_op) : outcome trace :=
    match o with
    | TrEnable b => Ok {| tr_len := tr_len s; tr_idx := tr_idx s; tr_cycle := tr_cycle s; tr_run := b; tr_buf := tr_buf s |}
    | TrRun i =>
      if tr_run s then
        if Nat.ltb (tr_idx s) (tr_len s) then
          let idx := S (tr_idx s) in
          let wrap := Nat.eqb idx (tr_len s) in
          Ok {| tr_len := tr_len s; tr_idx := if wrap then 0%nat else idx;
                tr_cycle := if wrap then true else tr_cycle s; tr_run := true;
                tr_buf := upd (tr_buf s) (tr_idx s) i |}
        else UB
      else Ok s
    end.
  Fixpoint tr_steps (s : trace) (os : list tr_op) : outcome trace :=
    match os with [] => Ok s | o :: os' => bind (tr_step s o) (fun s' => tr_steps s' os') end.
  (** Trace.hpp:49-78, getTrace and getTimestampTrace (values and time stamps together). *)
  Definition tr_get (s : trace) : list (signal T) :=
    if tr_cycle s then map (fun i => tr_buf s ((i + tr_idx s) mod tr_len s)) (seq 0 (tr_len s))
    else map (tr_buf s) (seq 0 (tr_idx s)).
End Trace.
Arguments trace : clear implicits.
Arguments tr_op : clear implicits.

Section Blocks.
  Context (N : num).

  (** ** WrapAround.hpp *)
  (** std::floor: an integral value, NaN and infinities unchanged. *)
  Definition nfloor (x : N) : N :=
    match ntrunc N x with
    | Some z => nofZ N (if nltb N x (nofZ N z) then z - 1 else z)
    | None => x
    end.
  (** WrapAround.hpp:92-103 *)
  Definition wa_calc (mn mx x : N) : N :=
    let delta := nabs N (nsub N mx mn) in
    let num := nsub N x mn in
    let tq := nfloor (ndiv N num delta) in
    let o := nsub N num (nmul N tq delta) in
    if nltb N o (nofZ N 0) then nadd N o delta
    else if nltb N (nofZ N 0) o then nadd N o mn
    else x.
  Record wrap := { wa_en : bool; wa_min : N; wa_max : N }.
  (** WrapAround.hpp:47-54 *)
  Definition wa_run (s : wrap) (i : signal N) : signal N :=
    mksig (if wa_en s then wa_calc (wa_min s) (wa_max s) (sv i) else sv i) (st i).
  (** WrapAround.hpp:84-88: the members are assigned to themselves. *)
  Definition wa_set (s : wrap) (mn mx : N) : wrap :=
    {| wa_en := wa_en s; wa_min := wa_min s; wa_max := wa_max s |}.

  (** ** SignalChecker.hpp, scalar and vector signals *)
  (** 176, 186: value > lowerLimit && value < upperLimit *)
  Definition within (lo hi x : N) : bool := nltb N lo x && nltb N x hi.
  (** Matrix.hpp:525-534 operator> and 493-502 operator<, vectors of equal size. *)
  Definition vec_gt (a b : list N) : bool := forallb (fun p => negb (nleb N (fst p) (snd p))) (combine a b).
  Definition vec_lt (a b : list N) : bool := forallb (fun p => negb (nleb N (snd p) (fst p))) (combine a b).
  Definition vec_within (lo hi x : list N) : bool := vec_gt x lo && vec_lt x hi.

  (** ** LowPassFilter.hpp *)
  Record lpf := { lp_alpha : N; lp_first : bool; lp_en : bool; lp_prev : N }.
  Definition lp_new (nan alpha : N) : lpf := {| lp_alpha := alpha; lp_first := true; lp_en := true; lp_prev := nan |}.
  (** LowPassFilter.hpp:58-72 *)
  Definition lp_run (s : lpf) (i : signal N) : lpf * signal N :=
    let p := if lp_first s then sv i else lp_prev s in
    let o := if lp_en s then nadd N (nmul N (sv i) (lp_alpha s)) (nmul N p (nsub N (nofZ N 1) (lp_alpha s)))
             else sv i in
    ({| lp_alpha := lp_alpha s; lp_first := false; lp_en := lp_en s; lp_prev := o |}, mksig o (st i)).
  Fixpoint lp_runs (s : lpf) (is : list (signal N)) : list (signal N) :=
    match is with
    | [] => []
    | i :: is' => let (s', y) := lp_run s i in y :: lp_runs s' is'
    end.

  (** ** MovingAverageFilter.hpp, N >= 1 coefficients *)
  Record maf := { ma_coef : list N; ma_prev : list N; ma_en : bool }.
  (** 45-47, 112: all previous values 0 *)
  Definition ma_new (c : list N) : maf :=
    {| ma_coef := c; ma_prev := repeat (nofZ N 0) (length c); ma_en := true |}.
  (** MovingAverageFilter.hpp:64-78: the values are shifted; result = c[N-1]*val + sum of
      c[i]*previousValues[i] after the shift, i = 0..N-2. *)
  Definition ma_result (c shifted : list N) (x : N) : N :=
    fold_left (fun a p => nadd N a (nmul N (fst p) (snd p))) (combine (removelast c) shifted)
      (nmul N (last c x) x).
  Definition ma_run (s : maf) (i : signal N) : maf * signal N :=
    let shifted := tl (ma_prev s) in
    let r := ma_result (ma_coef s) shifted (sv i) in
    ({| ma_coef := ma_coef s; ma_prev := shifted ++ [sv i]; ma_en := ma_en s |},
     mksig (if ma_en s then r else sv i) (st i)).
  Fixpoint ma_runs (s : maf) (is : list (signal N)) : list (signal N) :=
    match is with
    | [] => []
    | i :: is' => let (s', y) := ma_run s i in y :: ma_runs s' is'
    end.

  (** ** MedianFilter.hpp *)
  (** std::sort (line 70): any sorted permutation; undefined when the values are not ordered
      (NaN).  [sorted_perm] is its contract. *)
  Definition sorted_perm (sort : list N -> list N) : Prop :=
    forall l, (forall x, In x l -> neqb N x x = true) ->
      Permutation l (sort l) /\
      forall i j d, (i < j < length l)%nat -> nltb N (nth j (sort l) d) (nth i (sort l) d) = false.
  Record med := { me_vals : list N; me_en : bool }.
  Definition me_new (n : nat) : med := {| me_vals := repeat (nofZ N 0) n; me_en := true |}.
  (** MedianFilter.hpp:62-77, medianIndex 114 *)
  Definition me_run (sort : list N -> list N) (s : med) (i : signal N) : med * signal N :=
    let vals := tl (me_vals s) ++ [sv i] in
    ({| me_vals := vals; me_en := me_en s |},
     mksig (if me_en s then nth (length vals / 2) (sort vals) (nofZ N 0) else sv i) (st i)).

  (** ** Step.hpp *)
  Record step := { sp_init : N; sp_height : N; sp_delay : N; sp_time : N; sp_done : bool; sp_first : bool; sp_out : N }.
  (** Step.hpp:42-44, reset 71-74 *)
  Definition sp_new (nan init height delay : N) : step :=
    {| sp_init := init; sp_height := height; sp_delay := delay; sp_time := nan; sp_done := false;
       sp_first := true; sp_out := nan |}.
  (** Step.hpp:54-65; t1, t2: the readings of System::getTime() in lines 56 and 60. *)
  Definition sp_run (s : step) (t1 t2 : N) : step :=
    let time := if sp_first s then nadd N (sp_delay s) t1 else sp_time s in
    let o1 := if sp_first s then sp_init s else sp_out s in
    let go := negb (sp_done s) && nleb N time t2 in
    {| sp_init := sp_init s; sp_height := sp_height s; sp_delay := sp_delay s; sp_time := time;
       sp_done := if go then true else sp_done s; sp_first := false;
       sp_out := if go then nadd N (sp_init s) (sp_height s) else o1 |}.
  Definition sp_reset (s : step) : step :=
    {| sp_init := sp_init s; sp_height := sp_height s; sp_delay := sp_delay s; sp_time := sp_time s;
       sp_done := false; sp_first := true; sp_out := sp_out s |}.
  (** The runs, with their clock readings, and the outputs after them. *)
  Fixpoint sp_runs (s : step) (ts : list (N * N)) : list N :=
    match ts with
    | [] => []
    | (t1, t2) :: ts' => let s' := sp_run s t1 t2 in sp_out s' :: sp_runs s' ts'
    end.

  (** ** Switch.hpp *)
  Record swt := {
    sw_cur : Z; sw_cond : option (N * N * Z);  (* level, delta, next input; None: not initialised *)
    sw_armed : bool; sw_switched : bool; sw_children : list nat;
    sw_event : bool                            (* safety system and event registered *)
  }.
  Definition sw_set_cur (s : swt) (c : Z) : swt :=
    {| sw_cur := c; sw_cond := sw_cond s; sw_armed := sw_armed s; sw_switched := sw_switched s;
       sw_children := sw_children s; sw_event := sw_event s |}.
  (** Switch.hpp:41-46, 180-190 *)
  Definition sw_new (init : Z) : swt :=
    {| sw_cur := init mod 256; sw_cond := None; sw_armed := false; sw_switched := false; sw_children := [];
       sw_event := false |}.
  Definition sworld := nat -> swt.
  Section World.
    Context (n : Z).  (* template parameter N: number of inputs *)
    (** Switch.hpp:85-92; fuel bounds the recursion depth, UB: unbounded recursion. *)
    Fixpoint sw_to (fuel : nat) (w : sworld) (k : nat) (idx : Z) : outcome sworld :=
      match fuel with
      | O => UB
      | S f =>
        if idx <? n then
          fold_left (fun a c => bind a (fun w' => sw_to f w' c idx)) (sw_children (w k))
            (Ok (upd w k (sw_set_cur (w k) idx)))
        else Ok w
      end.
    (** Switch.hpp:175-178 *)
    Definition sw_combine (fuel : nat) (w : sworld) (k c : nat) : outcome sworld :=
      let w' := upd w k {| sw_cur := sw_cur (w k); sw_cond := sw_cond (w k); sw_armed := sw_armed (w k);
                           sw_switched := sw_switched (w k); sw_children := sw_children (w k) ++ [c];
                           sw_event := sw_event (w k) |} in
      sw_to fuel w' c (sw_cur (w' k)).
    (** Switch.hpp:60: within delta of the level *)
    Definition sw_near (level delta v : N) : bool :=
      nltb N v (nadd N level delta) && nltb N (nsub N level delta) v.
    (** Switch.hpp:56-77.  [ins]: the connected input signals; [lvl]: activeLevel == nullptr or
        currentLevel >= activeLevel.  Result: world, output, event triggered. *)
    Definition sw_run (fuel : nat) (w : sworld) (k : nat) (ins : Z -> signal N) (lvl : bool)
      : outcome (sworld * signal N * bool) :=
      let s := w k in
      if (sw_cur s <? n) then
        if sw_armed s && negb (sw_switched s) then
          match sw_cond s with
          | None => UB
          | Some (level, delta, next) =>
            if sw_near level delta (sv (ins (sw_cur s))) && lvl then
              bind (sw_to fuel w k next) (fun w1 =>
              bind (fold_left (fun a c => bind a (fun w' => sw_to fuel w' c next)) (sw_children (w1 k)) (Ok w1)) (fun w2 =>
              let w3 := upd w2 k {| sw_cur := sw_cur (w2 k); sw_cond := sw_cond (w2 k); sw_armed := false;
                                    sw_switched := true; sw_children := sw_children (w2 k);
                                    sw_event := sw_event (w2 k) |} in
              Ok (w3, ins (sw_cur (w3 k)), sw_event s)))
            else Ok (w, ins (sw_cur s), false)
          end
        else Ok (w, ins (sw_cur s), false)
      else UB.
    (** Switch.hpp:111-114, 143-156 *)
    Definition sw_arm (w : sworld) (k : nat) : sworld :=
      upd w k {| sw_cur := sw_cur (w k); sw_cond := sw_cond (w k); sw_armed := true; sw_switched := false;
                 sw_children := sw_children (w k); sw_event := sw_event (w k) |}.
    Definition sw_condition (w : sworld) (k : nat) (level delta : N) (next : Z) : sworld :=
      upd w k {| sw_cur := sw_cur (w k); sw_cond := Some (level, delta, next mod 256); sw_armed := sw_armed (w k);
                 sw_switched := sw_switched (w k); sw_children := sw_children (w k); sw_event := sw_event (w k) |}.
    Definition sw_register (w : sworld) (k : nat) : sworld :=
      upd w k {| sw_cur := sw_cur (w k); sw_cond := sw_cond (w k); sw_armed := sw_armed (w k);
                 sw_switched := sw_switched (w k); sw_children := sw_children (w k); sw_event := true |}.
  End World.
End Blocks.
Arguments lp_alpha {N} _.
Arguments lp_first {N} _.
Arguments lp_en {N} _.
Arguments lp_prev {N} _.
Arguments ma_coef {N} _.
Arguments ma_prev {N} _.
Arguments ma_en {N} _.
Arguments me_vals {N} _.
Arguments me_en {N} _.
Arguments wa_en {N} _.
Arguments wa_min {N} _.
Arguments wa_max {N} _.
Arguments sp_init {N} _.
Arguments sp_height {N} _.
Arguments sp_delay {N} _.
Arguments sp_time {N} _.
Arguments sp_done {N} _.
Arguments sp_first {N} _.
Arguments sp_out {N} _.
Arguments sw_cur {N} _.
Arguments sw_cond {N} _.
Arguments sw_armed {N} _.
Arguments sw_switched {N} _.
Arguments sw_children {N} _.
Arguments sw_event {N} _.

(** ** SignalChecker.hpp *)
Section Checker.
  Context {V : Type} (inside : V -> V -> V -> bool).  (* lower, upper, value *)
  Record checker := { ch_lo : V; ch_hi : V; ch_fired : bool; ch_safe : bool; ch_off : bool }.
  (** 57-65 *)
  Definition ch_new (lo hi : V) (off : bool) : checker :=
    {| ch_lo := lo; ch_hi := hi; ch_fired := false; ch_safe := false; ch_off := off |}.
  Inductive ch_op :=
  | ChRun (v : V) (lvl : bool)   (* lvl: activeLevel == nullptr or currentLevel >= activeLevel *)
  | ChReset | ChLimits (lo hi : V) | ChRegister.
  (** SignalChecker.hpp:83-114, 123-149; returns whether the event is triggered. *)
  Definition ch_step (s : checker) (o : ch_op) : checker * bool :=
    match o with
    | ChRun v lvl =>
      if negb (ch_fired s) && (if ch_off s then inside (ch_lo s) (ch_hi s) v else negb (inside (ch_lo s) (ch_hi s) v))
         && ch_safe s && lvl
      then ({| ch_lo := ch_lo s; ch_hi := ch_hi s; ch_fired := true; ch_safe := ch_safe s; ch_off := ch_off s |}, true)
      else (s, false)
    | ChReset => ({| ch_lo := ch_lo s; ch_hi := ch_hi s; ch_fired := false; ch_safe := ch_safe s; ch_off := ch_off s |}, false)
    | ChLimits lo hi => ({| ch_lo := lo; ch_hi := hi; ch_fired := ch_fired s; ch_safe := ch_safe s; ch_off := ch_off s |}, false)
    | ChRegister => ({| ch_lo := ch_lo s; ch_hi := ch_hi s; ch_fired := ch_fired s; ch_safe := true; ch_off := ch_off s |}, false)
    end.
  Fixpoint ch_trig (s : checker) (os : list ch_op) : list bool :=
    match os with
    | [] => []
    | o :: os' => let (s', b) := ch_step s o in b :: ch_trig s' os'
    end.
End Checker.
Arguments checker : clear implicits.
Arguments ch_op : clear implicits.

(** ** PeripheralOutput.hpp:46-58, doubles: the value and time stamp written to the device and
    whether NaNOutputFault is thrown afterwards. *)
Definition d_isnan (x : dbl) : bool := match x with S754_nan => true | _ => false end.
Definition d_isinf (x : dbl) : bool := match x with S754_infinity _ => true | _ => false end.
Definition po_run (safe : dbl) (i : signal dbl) : signal dbl * bool :=
  let bad := d_isnan (sv i) || d_isinf (sv i) in
  (mksig (if bad then safe else sv i) (st i), bad).
(** JsonParser.cpp:47, 141, 184-185, 405: the safe value of a channel, NaN when not configured. *)
Definition po_safe (configured : option dbl) : dbl := match configured with Some v => v | None => dnan end.

(** ** Transition.hpp *)
Section Transition.
  Context (N : num).
  Record transition := {
    tn_steady : bool; tn_up : bool; tn_ratio : N;
    tn_in : signal N; tn_previn : signal N; tn_refresh : bool; tn_buf : list (signal N);
    to_previn : signal N; to_in : signal N; to_dval : N; to_dtime : N; to_count : Z
  }.
  (** Transition.hpp:42-54, 112; the uninitialised members (in/prevIn of a falling transition,
      dVal, dTime) are the arguments [junk]. *)
  Definition tn_new (nan : N) (junk : signal N) (ratio : N) (steady : bool) : transition :=
    let up := nleb N (nofZ N 1) ratio in
    {| tn_steady := steady; tn_up := up; tn_ratio := ratio;
       tn_in := if up then mksig nan 0 else junk; tn_previn := if up then mksig nan 0 else junk;
       tn_refresh := false; tn_buf := [];
       to_previn := mksig nan 0; to_in := mksig nan 0; to_dval := sv junk; to_dtime := sv junk; to_count := 0 |}.
  (** Transition.hpp:82-101 *)
  Definition tn_in_run (s : transition) (i : signal N) : transition :=
    if tn_steady s then
      {| tn_steady := tn_steady s; tn_up := tn_up s; tn_ratio := tn_ratio s; tn_in := i; tn_previn := tn_previn s;
         tn_refresh := tn_refresh s; tn_buf := tn_buf s; to_previn := to_previn s; to_in := to_in s;
         to_dval := to_dval s; to_dtime := to_dtime s; to_count := to_count s |}
    else if tn_up s then
      {| tn_steady := tn_steady s; tn_up := tn_up s; tn_ratio := tn_ratio s; tn_in := i; tn_previn := tn_in s;
         tn_refresh := true; tn_buf := tn_buf s; to_previn := to_previn s; to_in := to_in s;
         to_dval := to_dval s; to_dtime := to_dtime s; to_count := to_count s |}
    else
      {| tn_steady := tn_steady s; tn_up := tn_up s; tn_ratio := tn_ratio s; tn_in := tn_in s; tn_previn := tn_previn s;
         tn_refresh := tn_refresh s; tn_buf := tn_buf s ++ [i]; to_previn := to_previn s; to_in := to_in s;
         to_dval := to_dval s; to_dtime := to_dtime s; to_count := to_count s |}.
  (** Transition.hpp:141: index of the first buffered signal that is not older than [time]. *)
  Fixpoint first_not_older (time : Z) (l : list (signal N)) : nat :=
    match l with
    | [] => 0
    | x :: l' => if st x <? time then S (first_not_older time l') else 0
    end.
  (** Transition.hpp:114-150.  [t]: time stamp of the input of the out block (falling transition
      only).  The interpolated time stamp (134) is the double sum converted to uint64_t. *)
  Definition tn_out_run (s : transition) (t : Z) : outcome (transition * signal N) :=
    if tn_steady s then Ok (s, tn_in s)
    else if tn_up s then
      let s1 := if tn_refresh s then
          {| tn_steady := tn_steady s; tn_up := tn_up s; tn_ratio := tn_ratio s; tn_in := tn_in s;
             tn_previn := tn_previn s; tn_refresh := false; tn_buf := tn_buf s;
             to_previn := tn_previn s; to_in := tn_in s;
             to_dval := ndiv N (nsub N (sv (tn_in s)) (sv (tn_previn s))) (tn_ratio s);
             to_dtime := ndiv N (nofZ N ((st (tn_in s) - st (tn_previn s)) mod 2 ^ 64)) (tn_ratio s);
             to_count := 0 |}
        else s in
      let v := nadd N (sv (to_previn s1)) (nmul N (to_dval s1) (nofZ N (to_count s1))) in
      match ntrunc N (nadd N (nofZ N (st (to_previn s1))) (nmul N (nofZ N (to_count s1)) (to_dtime s1))) with
      | Some ts => if (0 <=? ts) && (ts <? 2 ^ 64) then
          Ok ({| tn_steady := tn_steady s1; tn_up := tn_up s1; tn_ratio := tn_ratio s1; tn_in := tn_in s1;
                 tn_previn := tn_previn s1; tn_refresh := tn_refresh s1; tn_buf := tn_buf s1;
                 to_previn := to_previn s1; to_in := to_in s1; to_dval := to_dval s1; to_dtime := to_dtime s1;
                 to_count := (to_count s1 + 1) mod 2 ^ 32 |}, mksig v ts)
        else UB
      | None => UB
      end
    else
      let i := first_not_older t (tn_buf s) in
      match nth_error (tn_buf s) (pred i) with
      | Some sg => Ok ({| tn_steady := tn_steady s; tn_up := tn_up s; tn_ratio := tn_ratio s; tn_in := tn_in s;
                 tn_previn := tn_previn s; tn_refresh := tn_refresh s; tn_buf := [];
                 to_previn := to_previn s; to_in := to_in s; to_dval := to_dval s; to_dtime := to_dtime s;
                 to_count := to_count s |}, sg)
      | None => UB      (* container.buf[i] of an empty vector *)
      end.
End Transition.
Arguments tn_steady {N} _.
Arguments tn_up {N} _.
Arguments tn_ratio {N} _.
Arguments tn_in {N} _.
Arguments tn_previn {N} _.
Arguments tn_refresh {N} _.
Arguments tn_buf {N} _.
Arguments to_previn {N} _.
Arguments to_in {N} _.
Arguments to_dval {N} _.
Arguments to_dtime {N} _.
Arguments to_count {N} _.
