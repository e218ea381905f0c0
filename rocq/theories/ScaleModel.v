(** Model of the scale calculation of the HAL configuration parser, /repo/src/hal/JsonParser.cpp 193-352.
    The parsed configuration (libucl object) is given as lists; number_value() of a missing key is 0. *)
From Coq Require Import String.
From Verif Require Import Prelude Num.

Section Scale.
  Variable T : num.
  (** std::isfinite, numeric_limits<double>::min() and max() (lines 258-259, 326, 330). *)
  Variable finite : T -> bool.
  Variables dmin dmax : T.
  Notation zero := (nofZ T 0).
  Notation one := (nofZ T 1).

  (** One property of a scale entry, lines 223-249. *)
  Inductive prop :=
  | PId (s : string) | PMinIn (v : T) | PMaxIn (v : T) | PMinOut (v : T) | PMaxOut (v : T)
  | PScale (v : T) | POffset (v : T) | PUnknown.
  (** One range entry, lines 253-280. *)
  Record range := { r_id : string; r_nolimit : bool; r_minIn : T; r_maxIn : T; r_minOut : T; r_maxOut : T }.

  (** The locals set by the properties of one entry; initially as at 202-218 and 334-350. *)
  Record entry := { e_id : string; e_minIn : T; e_maxIn : T; e_minOut : T; e_maxOut : T; e_scale : T; e_offset : T; e_direct : bool }.
  Definition entry0 : entry :=
    {| e_id := EmptyString; e_minIn := zero; e_maxIn := zero; e_minOut := zero; e_maxOut := zero; e_scale := one; e_offset := zero; e_direct := false |}.
  Definition read_prop (e : entry) (p : prop) : outcome entry :=
    match p with
    | PId s => Ok {| e_id := s; e_minIn := e_minIn e; e_maxIn := e_maxIn e; e_minOut := e_minOut e; e_maxOut := e_maxOut e; e_scale := e_scale e; e_offset := e_offset e; e_direct := e_direct e |}
    | PMinIn v => Ok {| e_id := e_id e; e_minIn := v; e_maxIn := e_maxIn e; e_minOut := e_minOut e; e_maxOut := e_maxOut e; e_scale := e_scale e; e_offset := e_offset e; e_direct := e_direct e |}
    | PMaxIn v => Ok {| e_id := e_id e; e_minIn := e_minIn e; e_maxIn := v; e_minOut := e_minOut e; e_maxOut := e_maxOut e; e_scale := e_scale e; e_offset := e_offset e; e_direct := e_direct e |}
    | PMinOut v => Ok {| e_id := e_id e; e_minIn := e_minIn e; e_maxIn := e_maxIn e; e_minOut := v; e_maxOut := e_maxOut e; e_scale := e_scale e; e_offset := e_offset e; e_direct := e_direct e |}
    | PMaxOut v => Ok {| e_id := e_id e; e_minIn := e_minIn e; e_maxIn := e_maxIn e; e_minOut := e_minOut e; e_maxOut := v; e_scale := e_scale e; e_offset := e_offset e; e_direct := e_direct e |}
    | PScale v => Ok {| e_id := e_id e; e_minIn := e_minIn e; e_maxIn := e_maxIn e; e_minOut := e_minOut e; e_maxOut := e_maxOut e; e_scale := v; e_offset := e_offset e; e_direct := true |}
    | POffset v => Ok {| e_id := e_id e; e_minIn := e_minIn e; e_maxIn := e_maxIn e; e_minOut := e_minOut e; e_maxOut := e_maxOut e; e_scale := e_scale e; e_offset := v; e_direct := e_direct e |}
    | PUnknown => Fault
    end.
  Definition read_entry (ps : list prop) : outcome entry := fold_left (fun o p => bind o (fun e => read_prop e p)) ps (Ok entry0).

  (** Lines 251-266: the last range entry with this id; noRangeLimit if one of them has noLimit. *)
  Definition find_range (rs : list range) (i : string) : option range * bool :=
    fold_left (fun acc r => if String.eqb (r_id r) i then (Some r, snd acc || r_nolimit r) else acc) rs (None, false).

  (** The output parameters, lines 197-200, and firstScale. *)
  Record res := { s_scale : T; s_offset : T; s_min : T; s_max : T; s_first : bool }.
  Definition res0 : res := {| s_scale := one; s_offset := zero; s_min := zero; s_max := zero; s_first := true |}.

  (** Lines 302-309 / 319-324: narrow the range with the limits [lo], [hi] seen through the current scale. *)
  Definition narrow (s : res) (lo hi : T) : res :=
    let l := ndiv T (nsub T lo (s_offset s)) (s_scale s) in
    let h := ndiv T (nsub T hi (s_offset s)) (s_scale s) in
    {| s_scale := s_scale s; s_offset := s_offset s;
       s_min := if nltb T (s_min s) l then l else s_min s;
       s_max := if nltb T h (s_max s) then h else s_max s; s_first := s_first s |}.

  (** The body of the loop 221-351 for an entry [e] whose range lookup gave [r] and [nolim]. *)
  Definition scale_of (e : entry) (rMinOut rMaxOut : T) : T * T :=
    if e_direct e then (e_scale e, e_offset e)
    else
      let lsb := ndiv T (nsub T (e_maxOut e) (e_minOut e)) (nsub T (e_maxIn e) (e_minIn e)) in
      let xMin := nsub T (e_minIn e) (ndiv T (nadd T (e_minOut e) rMaxOut) lsb) in
      let xMax := nsub T (e_maxIn e) (ndiv T (nadd T (e_maxOut e) rMinOut) lsb) in
      let m := ndiv T (nsub T xMax xMin) (nadd T (nabs T rMinOut) (nabs T rMaxOut)) in
      let sc := ndiv T one m in
      (sc, nsub T zero (nadd T rMaxOut (nmul T xMin sc))).
  Definition apply_entry (e : entry) (r : range) (nolim : bool) (s : res) : outcome res :=
    let s := if nolim then {| s_scale := s_scale s; s_offset := s_offset s; s_min := dmin; s_max := dmax; s_first := s_first s |} else s in
    let '(a, b, c, d) :=
      if nolim then (if e_direct e then (zero, zero, zero, zero) else (e_minIn e, e_maxIn e, e_minOut e, e_maxOut e))
      else (r_minIn r, r_maxIn r, r_minOut r, r_maxOut r) in
    let '(sc, off) := scale_of e c d in
    let s := if s_first s then {| s_scale := s_scale s; s_offset := s_offset s; s_min := a; s_max := b; s_first := false |} else s in
    let s := if nolim then s else narrow s a b in
    let s := {| s_scale := nmul T (s_scale s) sc; s_offset := nadd T (nmul T (s_offset s) sc) off; s_min := s_min s; s_max := s_max s; s_first := s_first s |} in
    let s := if nolim then s else narrow s c d in
    if negb nolim && negb (finite (s_min s)) then Fault
    else if negb (finite (s_scale s)) || negb (finite (s_offset s)) then Fault
    else Ok s.

  Definition one_entry (rs : list range) (s : res) (ps : list prop) : outcome res :=
    bind (read_entry ps) (fun e =>
      match find_range rs (e_id e) with
      | (None, _) => Fault
      | (Some r, nolim) => apply_entry e r nolim s
      end).
  (** calcScale *)
  Definition calc_scale (rs : list range) (es : list (list prop)) : outcome res :=
    fold_left (fun o ps => bind o (fun s => one_entry rs s ps)) es (Ok res0).
End Scale.
