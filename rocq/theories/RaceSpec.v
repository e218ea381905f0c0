(** * What concurrent use of the blocks should guarantee *)
From Coq Require Import List String Bool Arith.
From Verif Require Import RaceModel.
Import ListNotations.

(** Thread [t] is about to access [x] ([w]: to write it). *)
Definition about (s : st) (t : nat) (x : loc) (w : bool) : Prop :=
  exists k, todo s t = (if w then AWrite x else ARead x) :: k.

(** A data race on [x], undefined behaviour in C++ ([intro.races]): two
    threads may access it at the same time, one of them writes. *)
Definition race_on (x : loc) (s : st) : Prop :=
  exists t t' w, t <> t' /\ about s t x true /\ about s t' x w.

(** The states reachable by threads making the calls [cs]. *)
Definition reachable (cs : nat -> list cmd) (s : st) : Prop :=
  exists s0 h, starts cs s0 /\ run s0 h s.

(** Every thread makes any number of calls from [ms] or calls that do not
    touch object [o] (they neither access its members nor lock or unlock its
    mutex). *)
Fixpoint foreign (o : obj) (c : cmd) : Prop :=
  match c with
  | Skip | Throw => True
  | Rd x | Wr x => fst x <> o
  | Lk m | Un m => m <> o
  | Sq a b | Alt a b => foreign o a /\ foreign o b
  | Rep a => foreign o a
  | Guard m a => m <> o /\ foreign o a
  end.

Definition uses (o : obj) (ms : list cmd) (cs : nat -> list cmd) : Prop :=
  forall t c, In c (cs t) -> In c ms \/ foreign o c.

(** No access to the members [xs] of [o] is ever part of a data race. *)
Definition race_free (o : obj) (ms : list cmd) (xs : list string) : Prop :=
  forall cs s x, uses o ms cs -> reachable cs s -> In x xs -> ~ race_on (o, x) s.

(** A thread is about to do a step and no thread can do one. *)
Definition deadlocked (s : st) : Prop :=
  (exists t, todo s t <> []) /\ forall t a s', ~ step s t a s'.

(** [t] accessed [x] and later [y] in the same call, and another thread wrote
    [x] or [y] in between. *)
Definition is_acc (a : act) (x : loc) : Prop := a = ARead x \/ a = AWrite x.

Definition torn (h : list (nat * act)) (x y : loc) : Prop :=
  exists t t' z a b h1 h2 h3,
    h = h1 ++ (t, a) :: h2 ++ (t, b) :: h3 /\
    is_acc a x /\ is_acc b y /\
    ~ In (t, AEnd) h2 /\
    t' <> t /\ (z = x \/ z = y) /\ In (t', AWrite z) h2.

(** The members [xs] of [o] used by one call are not changed by others
    during the call. *)
Definition call_atomic (o : obj) (ms : list cmd) (xs : list string) : Prop :=
  forall cs s0 h s x y, uses o ms cs -> starts cs s0 -> run s0 h s ->
    In x xs -> In y xs -> ~ torn h (o, x) (o, y).

(** Misuse of a mutex, undefined in C++: its owner locks it again, or a
    thread unlocks a mutex it does not own. *)
Definition misuse (s : st) : Prop :=
  exists t m k, todo s t = ALock m :: k /\ own s m = Some t \/
                todo s t = AUnlock m :: k /\ own s m <> Some t.

(** Thread [t] can still go on: the other threads can reach a state in which
    [t] does its next step. *)
Definition can_go_on (s : st) (t : nat) : Prop :=
  exists h s1 a s2, run s h s1 /\ ~ In t (map fst h) /\ step s1 t a s2.

(** The calls of the library used by the threads: the methods of blocks
    (objects other than 0), of the safety system, of transitions with a
    connected input, and time domains made of them. *)
Inductive lib_call : cmd -> Prop :=
| lc_sc o src c : o <> 0 -> In c (sc_methods o src) -> lib_call c
| lc_ct o c : o <> 0 -> In c [ct_run o; ct_setValue o; ct_getValue o] -> lib_call c
| lc_i o src c : o <> 0 -> In c (i_methods o src) -> lib_call c
| lc_g o src c : o <> 0 -> In c (g_methods o src) -> lib_call c
| lc_rl o src c : o <> 0 -> In c (rl_methods o src) -> lib_call c
| lc_sa o src c : o <> 0 -> In c (sa_methods o src) -> lib_call c
| lc_wa o src c : o <> 0 -> In c (wa_methods o src) -> lib_call c
| lc_po o hw src c : o <> 0 -> In c [po_run o hw src; po_getValue o] -> lib_call c
| lc_kp o us : o <> 0 -> lib_call (kf_prediction o us)
| lc_kc o us ys : o <> 0 -> lib_call (kf_correction o us ys)
| lc_sp o c : In c (sp_methods o) -> lib_call c
| lc_sw o srcs comb c : o <> 0 -> In c (sw_methods o srcs comb) -> lib_call c
| lc_pp o c : o <> 0 -> In c (pp_methods o) -> lib_call c
| lc_ti o src c : o <> 0 ->
    In c [tr_in_steady o (Some src); tr_in_up o (Some src); tr_in_down o (Some src)] ->
    lib_call c
| lc_to o b src c : o <> 0 ->
    In c [tr_out_steady o b; tr_out_up o b; tr_out_down o b src] -> lib_call c
| lc_rb o c : o <> 0 -> In c [rb_push o; rb_pop o; rb_length o] -> lib_call c
| lc_so o c : o <> 0 -> In c (so_methods o) -> lib_call c
| lc_pl o srcs : lib_call (plain_run o srcs)
| lc_level : lib_call ss_level
| lc_trigger : lib_call ss_trigger
| lc_ss user : Forall lib_call user -> lib_call (ss_run user)
| lc_td o bs : Forall lib_call bs -> lib_call (td_run o bs)
| lc_tdc o c : In c [td_start o; td_stop o; td_addBlock o; td_removeBlock o] -> lib_call c.

(** Only thread [t0] uses object [o]. *)
Definition confined (o : obj) (t0 : nat) (cs : nat -> list cmd) : Prop :=
  forall t c, In c (cs t) -> t = t0 \/ foreign o c.

(** No call writes [x]. *)
Fixpoint unwritten (x : loc) (c : cmd) : Prop :=
  match c with
  | Skip | Throw | Rd _ | Lk _ | Un _ => True
  | Wr y => y <> x
  | Sq a b | Alt a b => unwritten x a /\ unwritten x b
  | Rep a | Guard _ a => unwritten x a
  end.
