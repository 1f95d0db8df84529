(** Model of thetis/interpolation.py: time stamp search, file search, linear time
    interpolation with its cache, netCDF variable lookup, grid interpolation.

    Simplifications: times are exact rationals (epoch seconds); a netCDF file is
    its name, its time axis and its data; numpy.searchsorted is the first position
    whose entry is not smaller than the key (which is what it returns for sorted
    arrays); Delaunay triangulation and nearest neighbour queries are parameters. *)
From Coq Require Import String Ascii.
From Verif Require Import Num Exporter_Model Timezone_Model.
Open Scope string_scope.
Open Scope Z_scope.

(** interpolation.py:55 *)
Definition TOL : Qc := qq 1 1000000.

(** numpy.searchsorted(a, v), side='left' *)
Fixpoint searchsorted (a : list Qc) (v : Qc) : nat :=
  match a with
  | [] => 0%nat
  | x :: r => if Qcltb x v then S (searchsorted r v) else 0%nat
  end.

(** NetCDFTimeParser.find_time_stamp, interpolation.py:575-585; [None]: IndexError *)
Definition find_time_stamp (time_array : list Qc) (t : Qc) (previous : bool) : option nat :=
  let itime := Z.of_nat (searchsorted time_array (t + TOL)%Qc) - (if previous then 1 else 0) in
  if itime <? 0 then None
  else if Z.of_nat (List.length time_array) <=? itime then None
  else Some (Z.to_nat itime).

(** ** NetCDFTimeSearch, interpolation.py:605-673 *)
Record ncfile := mkNc { nc_name : string; nc_times : list Qc (* epoch *) }.
Definition nc_start (f : ncfile) : Qc := hd 0%Qc (nc_times f).

(** numpy.argsort on the start times (624-627): insertion sort *)
Fixpoint insert_file (f : ncfile) (l : list ncfile) : list ncfile :=
  match l with
  | [] => [f]
  | g :: r => if Qcleb (nc_start f) (nc_start g) then f :: l else g :: insert_file f r
  end.
Definition sort_files (l : list ncfile) : list ncfile := fold_right insert_file [] l.

Definition found := (string * nat * Qc)%type.

(** loop over candidates, 662-673 *)
Fixpoint try_candidates (files : list ncfile) (cand : list nat) (sim_start t : Qc) (previous : bool) : option found :=
  match cand with
  | [] => None
  | i :: r =>
    match nth_error files i with
    | None => try_candidates files r sim_start t previous        (* IndexError *)
    | Some f =>
      match find_time_stamp (nc_times f) (sim_start + t)%Qc previous with
      | None => try_candidates files r sim_start t previous
      | Some k => Some (nc_name f, k, (nth k (nc_times f) 0 - sim_start)%Qc)
      end
    end
  end.
(** find, 645-673.  [files]: the unsorted list of files, [sim_start]: epoch of init_date *)
Definition time_search (all_files : list ncfile) (sim_start t : Qc) (previous : bool) : option found :=
  let files := sort_files all_files in
  let start_times := map (fun f => nc_start f - sim_start)%Qc files in
  let ix := searchsorted start_times (t + TOL)%Qc in
  let candidates :=
    match ix with
    | O => if Nat.ltb (ix + 1) (List.length start_times) then [ix; ix + 1]%nat else [ix]
    | S p => [p; ix]
    end in
  try_candidates files candidates sim_start t previous.

(** ** DailyFileTimeSearch.find, interpolation.py:748-764.  [start_times] sorted with
    the files (708-712) *)
Definition daily_find (files : list (string * Qc)) (t : Qc) (previous : bool) : option found :=
  let ix := searchsorted (map snd files) (t + TOL)%Qc in
  let i := Z.of_nat ix - (if previous then 1 else 0) in
  if i <? 0 then None
  else match nth_error files (Z.to_nat i) with
       | None => None
       | Some (fn, st) => Some (fn, 0%nat, st)
       end.
Fixpoint insert_daily (f : string * Qc) (l : list (string * Qc)) : list (string * Qc) :=
  match l with
  | [] => [f]
  | g :: r => if Qcleb (snd f) (snd g) then f :: l else g :: insert_daily f r
  end.
Definition sort_daily (l : list (string * Qc)) : list (string * Qc) := fold_right insert_daily [] l.

(** ** File name patterns, interpolation.py:719-742 *)
Inductive tok := Lit (c : ascii) | TYear | TMonth | TDay.
Definition digit (n : nat) : ascii := ascii_of_nat (48 + n mod 10).
(** '{:02d}' of a number below 100 and '{:04d}' of one below 10000 *)
Definition two_digits (n : nat) : string := String (digit (n / 10)) (String (digit n) "").
Definition four_digits (n : nat) : string :=
  String (digit (n / 1000)) (String (digit (n / 100)) (String (digit (n / 10)) (String (digit n) ""))).
(** the name a data provider gives to the file of a date: file_pattern.format(year=..., month=..., day=...) *)
Fixpoint format_pattern (p : list tok) (y m d : nat) : string :=
  match p with
  | [] => ""
  | Lit c :: r => String c (format_pattern r y m d)
  | TYear :: r => four_digits y ++ format_pattern r y m d
  | TMonth :: r => two_digits m ++ format_pattern r y m d
  | TDay :: r => two_digits d ++ format_pattern r y m d
  end.
Definition digit_val (c : ascii) : option nat :=
  let n := nat_of_ascii c in if (Nat.leb 48 n && Nat.leb n 57)%bool then Some (n - 48)%nat else None.
(** match \d{k,k} at the start of [s]: value and rest *)
Fixpoint match_digits (k : nat) (acc : nat) (s : string) : option (nat * string) :=
  match k with
  | O => Some (acc, s)
  | S k' => match s with
            | EmptyString => None
            | String c r => match digit_val c with Some v => match_digits k' (acc * 10 + v) r | None => None end
            end
  end.
(** a literal character of the pattern used as a regular expression: '.' matches
    everything.  Other special characters are outside this model. *)
Definition lit_matches (p c : ascii) : bool := (Ascii.eqb p "." || Ascii.eqb p c)%bool.
(** match at the start: values of the groups in order *)
Fixpoint match_here (p : list tok) (s : string) : option (list nat * string) :=
  match p with
  | [] => Some ([], s)
  | Lit c :: r => match s with
                  | EmptyString => None
                  | String x s' => if lit_matches c x then match_here r s' else None
                  end
  | t :: r => match match_digits (match t with TYear => 4 | _ => 2 end) 0 s with
              | None => None
              | Some (v, s') => match match_here r s' with None => None | Some (vs, s'') => Some (v :: vs, s'') end
              end
  end.
(** re.findall: non-overlapping matches from the left; [fuel] bounds the scan by the length *)
Fixpoint findall (fuel : nat) (p : list tok) (s : string) : list (list nat) :=
  match fuel with
  | O => []
  | S n => match match_here p s with
           | Some (vs, rest) => match p with [] => [] | _ => vs :: findall n p rest end
           | None => match s with EmptyString => [] | String _ r => findall n p r end
           end
  end.
Definition labels (p : list tok) : list tok := filter (fun t => match t with Lit _ => false | _ => true end) p.
(** dict(zip(labels, values)): the last value of a label counts *)
Fixpoint lookup_label (want : tok -> bool) (l : list (tok * nat)) : option nat :=
  match l with
  | [] => None
  | (t, v) :: r => match lookup_label want r with Some x => Some x | None => if want t then Some v else None end
  end.
Definition is_year (t : tok) := match t with TYear => true | _ => false end.
Definition is_month (t : tok) := match t with TMonth => true | _ => false end.
Definition is_day (t : tok) := match t with TDay => true | _ => false end.
(** _parse_date, 729-742; [None]: AssertionError or KeyError *)
Definition parse_date (p : list tok) (filename : string) : option (nat * nat * nat) :=
  match findall (S (String.length filename)) p filename with
  | [vs] => let l := combine (labels p) vs in
            match lookup_label is_year l, lookup_label is_month l, lookup_label is_day l with
            | Some y, Some m, Some d => Some (y, m, d)
            | _, _, _ => None
            end
  | _ => None
  end.

(** DailyFileTimeSearch.__init__, interpolation.py:693-712.  [names]: result of glob.
    A failed parse (AssertionError, KeyError) or an impossible date (ValueError) is [None]. *)
Definition date := (nat * nat * nat)%type.
Definition date_ok (d : date) : bool :=
  let '(y, m, dd) := d in
  let y := Z.of_nat y in let m := Z.of_nat m in let dd := Z.of_nat dd in
  ((1 <=? y) && (y <=? 9999) && (1 <=? m) && (m <=? 12) && (1 <=? dd) && (dd <=? days_in_month y m))%bool.
(** time stamp of a date, relative to init_date *)
Definition daily_start (init : datetime) (hour offset : Z) (d : date) : Qc :=
  let '(y, m, dd) := d in
  qq (dt_diff (mkDt (Z.of_nat y) (Z.of_nat m) (Z.of_nat dd) (hour * 3600 * 1000000) offset) init) 1000000.
Definition daily_entry (p : list tok) (init : datetime) (hour offset : Z) (name : string) : option (string * Qc) :=
  match parse_date p name with
  | Some d => if date_ok d then Some (name, daily_start init hour offset d) else None
  | None => None
  end.
Fixpoint map_opt {A B} (f : A -> option B) (l : list A) : option (list B) :=
  match l with
  | [] => Some []
  | x :: r => match f x, map_opt f r with Some y, Some ys => Some (y :: ys) | _, _ => None end
  end.
Definition daily_init (p : list tok) (init : datetime) (hour offset : Z) (names : list string) : option (list (string * Qc)) :=
  match map_opt (daily_entry p init hour offset) names with
  | Some l => Some (sort_daily l)
  | None => None
  end.

(** ** LinearTimeInterpolator, interpolation.py:767-824 *)
Section Linear.
Variable find : Qc -> bool -> option found.          (* timesearch.find(t, previous) *)
Variable reader : string -> nat -> list Qc.          (* reader(file, time_index) *)

Definition cache := list (found * list Qc).
Definition found_eqb (a b : found) : bool :=
  let '(f1, i1, t1) := a in let '(f2, i2, t2) := b in
  (String.eqb f1 f2 && Nat.eqb i1 i2 && Qceqb t1 t2)%bool.
Fixpoint cache_get (c : cache) (k : found) : option (list Qc) :=
  match c with [] => None | (k', v) :: r => if found_eqb k k' then Some v else cache_get r k end.
(** _get_from_cache, 786-792 *)
Definition get_from_cache (c : cache) (k : found) : list Qc * cache :=
  match cache_get c k with
  | Some v => (v, c)
  | None => let v := reader (fst (fst k)) (snd (fst k)) in (v, (c ++ [(k, v)])%list)
  end.
(** _clean_cache, 794-800 *)
Definition clean_cache (c : cache) (keep : list found) : cache :=
  filter (fun p => existsb (found_eqb (fst p)) keep) c.

Inductive interp_error := NoFile | OutOfRange | ZeroDivision.

Definition interp_values (t t_prev t_next : Qc) (prev next : list Qc) : list Qc + interp_error :=
  if Qceqb (t_next - t_prev)%Qc 0%Qc then inr ZeroDivision
  else
    let alpha := ((t - t_prev) / (t_next - t_prev))%Qc in
    if (Qcleb (0 - TOL)%Qc alpha && Qcleb alpha (1 + TOL)%Qc)%bool then
      inl (map (fun pn => (1 - alpha) * fst pn + alpha * snd pn)%Qc (combine prev next))
    else inr OutOfRange.

(** __call__, 802-824 *)
Definition interp_call (c : cache) (t : Qc) : (list Qc + interp_error) * cache :=
  match find t true with
  | None => (inr NoFile, c)
  | Some prev_id =>
    match find t false with
    | None => (inr NoFile, c)
    | Some next_id =>
      let '(prev, c1) := get_from_cache c prev_id in
      let '(next, c2) := get_from_cache c1 next_id in
      let c3 := clean_cache c2 [prev_id; next_id] in
      (interp_values t (snd prev_id) (snd next_id) prev next, c3)
    end
  end.
Definition interp_run (c : cache) (ts : list Qc) : cache := fold_left (fun c t => snd (interp_call c t)) ts c.
(** NetCDFTimeSeriesInterpolator.__call__, interpolation.py:856-867: the values are
    fresh objects, so scaling them in place does not reach the cache *)
Definition series_call (scalars : option (list Qc)) (c : cache) (t : Qc) : (list Qc + interp_error) * cache :=
  let '(r, c') := interp_call c t in
  (match r, scalars with
   | inl vals, Some ss => inl (map (fun vs => fst vs * snd vs)%Qc (combine vals ss))
   | _, _ => r
   end, c').
End Linear.

(** ** get_ncvar_name, interpolation.py:58-110 *)
Record ncvar := mkVar { v_name : string; v_standard : option string; v_long : option string }.
Definition lower_ascii (c : ascii) : ascii :=
  let n := nat_of_ascii c in if (Nat.leb 65 n && Nat.leb n 90)%bool then ascii_of_nat (n + 32) else c.
Fixpoint lower (s : string) : string :=
  match s with EmptyString => "" | String c r => String (lower_ascii c) (lower r) end.
Definition attr_in (a : option string) (l : list string) : bool :=
  match a with Some s => existsb (String.eqb (lower s)) l | None => false end.
Definition var_matches (sn ln vn : list string) (v : ncvar) : bool :=
  (attr_in (v_standard v) sn || attr_in (v_long v) ln || existsb (String.eqb (lower (v_name v))) vn)%bool.
Fixpoint first_match (sn ln vn : list string) (vars : list ncvar) : option string :=
  match vars with
  | [] => None
  | v :: r => if var_matches sn ln vn v then Some (v_name v) else first_match sn ln vn r
  end.
Inductive ncerr := NcAssertion | NcValue.
(** A missing criterion (Python None) is [None]; [listify] turns it into a list that matches nothing. *)
Definition get_ncvar_name (vars : list ncvar) (sn ln vn : option (list string)) : string + ncerr :=
  match sn, ln with
  | None, None => inr NcAssertion
  | _, _ => let l o := match o with Some x => x | None => [] end in
            match first_match (l sn) (l ln) (l vn) vars with Some n => inl n | None => inr NcValue end
  end.

(** ** GridInterpolator, interpolation.py:113-240 *)
Section Grid.
(** bary, interpolation.py:197-199: rows of the transform times the offset from the last vertex *)
Definition qsum (l : list Qc) : Qc := fold_right Qcplus 0%Qc l.
Definition dot (a b : list Qc) : Qc := qsum (map (fun p => fst p * snd p)%Qc (combine a b)).
Definition bary (T : list (list Qc)) (r x : list Qc) : list Qc :=
  map (fun row => dot row (map (fun p => fst p - snd p)%Qc (combine x r))) T.
(** A target point: vertices of the simplex taken and the first d weights
    (interpolation.py:195-199); [None] if not finite. *)
Record gtarget := mkTarget { g_vtx : list nat; g_bary : option (list Qc); g_nearest : nat }.
(** wts, 201 *)
Definition weights (b : list Qc) : list Qc := (b ++ [1 - qsum b])%Qc%list.
(** outside, 202-204 *)
Definition is_outside (g : gtarget) : bool :=
  match g_bary g with None => true | Some b => existsb (fun w => Qcltb w 0%Qc) (weights b) end.
(** a value, or NaN *)
Definition fval := option Qc.
Definition take (values : list Qc) (ix : list nat) : list Qc := map (fun i => nth i values 0%Qc) ix.
(** __call__, 222-240.  [failed]: cannot_interpolate *)
Definition grid_interp (failed fill_nearest : bool) (fill_value : fval) (targets : list gtarget) (values : list Qc) : list fval :=
  if failed then
    map (fun g => if fill_nearest then Some (nth (g_nearest g) values 0%Qc) else fill_value) targets
  else
    let any_outside := existsb is_outside targets in
    let fill_nearest := (fill_nearest && any_outside)%bool in
    map (fun g =>
      if is_outside g then
        if fill_nearest then Some (nth (g_nearest g) values 0%Qc) else fill_value
      else match g_bary g with
           | Some b => Some (dot (take values (g_vtx g)) (weights b))
           | None => None
           end) targets.
End Grid.

(** compact support, interpolation.py:308-325, 388-407, 474: rows and columns are
    sliced, then raveled, for coordinates and data alike *)
Definition slice {A} (lo hi : nat) (l : list A) : list A := firstn (hi - lo) (skipn lo l).
Definition subset {A} (r0 r1 c0 c1 : nat) (grid : list (list A)) : list A :=
  concat (map (slice c0 c1) (slice r0 r1 grid)).
