(** The sensors of the simulated vehicle, their values and the two documents: exp/vss_config.go
    31-40 and exp/utils.go. *)
From Verif Require Import Base F64 Tson Bytes GoText Vss.

(** [SensorData] (exp/vss_config.go 31-40).  Every value the program stores in [Value] is a
    float64, a bool or a string. *)
Record sensor : Type := Sensor {
  s_path : string; s_value : prim; s_type : string; s_stamp : Z; s_interval : Z;
  s_pattern : string; s_params : list (string * f64); s_count : Z }.
(** A map of sensors, and [VehicleData] (exp/vss_config.go 21-28): the six maps in the order in
    which the program visits them. *)
Notation smap := (list (string * sensor)) (only parsing).
Notation vehicle := (list (list (string * sensor))) (only parsing).

Definition set_value (v : prim) (s : sensor) : sensor :=
  Sensor (s_path s) v (s_type s) (s_stamp s) (s_interval s) (s_pattern s) (s_params s) (s_count s).
Definition set_stamp (t : Z) (s : sensor) : sensor :=
  Sensor (s_path s) (s_value s) (s_type s) t (s_interval s) (s_pattern s) (s_params s) (s_count s).
Definition set_count (n : Z) (s : sensor) : sensor :=
  Sensor (s_path s) (s_value s) (s_type s) (s_stamp s) (s_interval s) (s_pattern s) (s_params s) n.
Definition set_pattern (p : string) (s : sensor) : sensor :=
  Sensor (s_path s) (s_value s) (s_type s) (s_stamp s) (s_interval s) p (s_params s) (s_count s).
Definition set_params (m : list (string * f64)) (s : sensor) : sensor :=
  Sensor (s_path s) (s_value s) (s_type s) (s_stamp s) (s_interval s) (s_pattern s) m (s_count s).
Definition set_param (k : string) (x : f64) (s : sensor) : sensor := set_params (ainsert k x (s_params s)) s.
(** [sensor.ChangeParams[k]]: 0 if there is none. *)
Definition param (s : sensor) (k : string) : f64 := default (S754_zero false) (alookup k (s_params s)).

(** ** New values *)
Definition f64_sub (x y : f64) : f64 := SFsub f64_prec f64_emax x y.
Definition f64_div (x y : f64) : f64 := SFdiv f64_prec f64_emax x y.
Definition f64_abs (x : f64) : f64 := SFabs x.
(** [>=] is not the negation of [<]: a NaN is neither. *)
Definition f64_ge (x y : f64) : bool := SFleb y x.
Definition two_pi : f64 := S754_finite false 7074237752028440 (-50).
(** [strings.Contains]. *)
Fixpoint has_part (s p : string) : bool :=
  has_prefix s p || match s with EmptyString => false | String _ s' => has_part s' p end.
(** [rand.Float64()*2.0 - 1.0]. *)
Definition swing (r : f64) : f64 := f64_sub (f64_mul r (f64_of_Z 2)) (f64_of_Z 1).
(** The limits in exp/utils.go 281-285, 316-320 and 346-350. *)
Definition clamp (lo hi x : f64) : f64 := if f64_lt x lo then lo else if f64_lt hi x then hi else x.

(** [calculateNewNumberValue] (exp/utils.go 250-376); the new counter and value.  [d] are the
    results of [math/rand], [sn] is [math.Sin].  The products of int do not wrap around, and
    products and sums of float64 are rounded one by one, as on amd64. *)
Definition new_number (sn : f64 -> f64) (d : draws) (t : Z) (s : sensor) (cur : f64) : Z * f64 :=
  let n := s_count s in
  if decide (s_pattern s = "constant_with_noise") then
    (n, f64_add (param s "baseline") (f64_mul (swing (d_float d 0)) (param s "noise")))
  else if decide (s_pattern s = "linear") then
    (n, clamp (param s "min") (param s "max")
          (f64_add cur (f64_div (f64_mul (param s "slope") (f64_of_Z (s_interval s))) (f64_of_Z 1000))))
  else if decide (s_pattern s = "sinusoidal") then
    (n, let cycle := f64_div (f64_of_Z (t + f64_to_int64 (param s "phase"))) (param s "period") in
        f64_add (param s "baseline") (f64_mul (param s "amplitude") (sn (f64_mul two_pi cycle))))
  else if decide (s_pattern s = "random_walk") then
    (n, clamp (param s "min") (param s "max")
          (f64_add cur (f64_mul (swing (d_float d 0)) (param s "step_size"))))
  else if decide (s_pattern s = "stepped") then
    if f64_ge (f64_of_Z (n * s_interval s)) (param s "step_interval") then
      let dir := if f64_lt (d_float d 0) one_half then f64_of_Z (-1) else f64_of_Z 1 in
      (0, clamp (param s "min") (param s "max") (f64_add cur (f64_mul dir (param s "step_size"))))
    else (n, cur)
  else if decide (s_pattern s = "triggered") then
    if f64_lt (d_float d 0) (param s "threshold") || f64_ge (f64_of_Z (n * s_interval s)) (param s "reset_interval") then
      (0, f64_add (param s "min_value") (f64_mul (d_float d 1) (f64_sub (param s "max_value") (param s "min_value"))))
    else (n, cur)
  else (n, cur).

(** [calculateNewBooleanValue] (exp/utils.go 379-418). *)
Definition new_bool (d : draws) (s : sensor) (cur : bool) : bool :=
  if decide (s_pattern s = "toggle") then
    if f64_lt (d_float d 0) (param s "toggle_probability") then negb cur else cur
  else if decide (s_pattern s = "triggered") then
    if f64_lt (d_float d 0) (param s "threshold") then negb cur else cur
  else cur.

(** The loop in exp/utils.go 467-473.  It has no bound; [Err] stands for a loop that has not ended
    after [fuel] turns. *)
Fixpoint pick_other (fuel i : nat) (d : draws) (prefix : string) (n : Z) (cur : string) : res string :=
  match fuel with
  | O => Err
  | S fuel' =>
      if n <=? 0 then Panic
      else
        let v := prefix +++ z_text (d_int d i n) in
        if decide (v = cur) then pick_other fuel' (S i) d prefix n cur else Ok v
  end.
(** [options[rand.Intn(len(options))]]. *)
Definition pick_option (d : draws) (options : list string) : res string :=
  match options !! Z.to_nat (d_int d 0 (Z.of_nat (length options))) with Some v => Ok v | None => Panic end.
(** [calculateNewStringValue] (exp/utils.go 421-485). *)
Definition new_string (fuel : nat) (d : draws) (s : sensor) (cur : string) : res string :=
  if decide (s_pattern s = "random_selection") then
    let n := f64_to_int64 (param s "num_choices") in
    let p := param s "change_probability" in
    let prob := if f64_eq p (S754_zero false) then f64_of_ratio false 1 20 else p in
    if f64_lt (d_float d 0) prob then
      if has_part (s_path s) "Transmission" then pick_other fuel 0 d "gear_" n cur
      else if has_part (s_path s) "HVAC" then pick_other fuel 0 d "setting_" n cur
      else if has_part (s_path s) "ChargingStatus" then pick_option d ["charging"; "full"; "error"; "pending"]
      else if has_part (s_path s) "ChargingMode" then pick_option d ["fast"; "normal"; "eco"; "scheduled"]
      else pick_other fuel 0 d "value_" n cur
    else Ok cur
  else Ok cur.

(** [calculateNewValue] (exp/utils.go 223-247): the sensor with its new counter, and the value.
    The scenario handed over is not used. *)
Definition new_value (sn : f64 -> f64) (fuel : nat) (d : draws) (t : Z) (s0 : sensor) : res (sensor * prim) :=
  let s := set_count (s_count s0 + 1) s0 in
  if decide (s_type s = "number") then
    match s_value s with
    | PNum cur => let '(n, v) := new_number sn d t s cur in Ok (set_count n s, PNum v)
    | _ => Ok (s, PNum (S754_zero false))
    end
  else if decide (s_type s = "boolean") then
    match s_value s with
    | PBool cur => Ok (s, PBool (new_bool d s cur))
    | _ => Ok (s, PBool false)
    end
  else if decide (s_type s = "string") then
    match s_value s with
    | PStr cur => do v <- new_string fuel d s cur; Ok (s, PStr v)
    | _ => Ok (s, PStr "unknown_value")
    end
  else Ok (s, s_value s).

(** [isEqual] (exp/utils.go 94-116). *)
Definition tolerance : f64 := f64_of_ratio false 1 200.
Definition is_equal (v w : prim) : bool :=
  match v, w with
  | PNum x, PNum y => f64_lt (f64_abs (f64_sub x y)) tolerance
  | PBool x, PBool y => Bool.eqb x y
  | PStr x, PStr y => bool_decide (x = y)
  | _, _ => false
  end.

(** ** The documents *)
(** [JsonDoc] and [TsonDoc] (exp/exp_scenario.go 38-41). *)
Definition doc : Type := list (string * wjson).
Definition leaf_obj (stamp : string) (v : prim) (t : Z) : wjson := WObj [("value", write_prim v); (stamp, WInt t)].

(** [addPathToJsonDoc] and [addPathToTsonDoc] (exp/utils.go 163-187, 190-216), which differ in the
    name of the timestamp. *)
Fixpoint add_path (stamp : string) (parts : list string) (v : prim) (t : Z) (m : doc) : res doc :=
  match parts with
  | [] => Panic
  | [k] => Ok (ainsert k (leaf_obj stamp v t) m)
  | k :: rest =>
      match alookup k m with
      | None => do c <- add_path stamp rest v t []; Ok (ainsert k (WObj c) m)
      | Some (WObj c) => do c' <- add_path stamp rest v t c; Ok (ainsert k (WObj c') m)
      | Some _ => Panic
      end
  end.
Definition add_sensor (stamp : string) (x : string * sensor) (m : doc) : res doc :=
  add_path stamp (split_on dot (fst x)) (s_value (snd x)) (s_stamp (snd x)) m.
Fixpoint add_all (stamp : string) (xs : list (string * sensor)) (m : doc) : res doc :=
  match xs with
  | [] => Ok m
  | x :: xs' => do m' <- add_sensor stamp x m; add_all stamp xs' m'
  end.
(** [vehicleDataToJsonDoc] and [vehicleDataToTsonDoc] (exp/utils.go 119-160). *)
Definition vehicle_doc (stamp : string) (v : vehicle) : res doc := add_all stamp (concat v) [].

(** [updateJsonDoc] and [updateTsonDoc] (exp/utils.go 40-91): [put] is what happens to the last
    name. *)
Definition sub_map (w : option wjson) : doc := match w with Some (WObj m) => m | _ => [] end.
Fixpoint update_doc (put : option wjson -> wjson) (parts : list string) (m : doc) : doc :=
  match parts with
  | [] => m
  | [k] => ainsert k (put (alookup k m)) m
  | k :: rest => ainsert k (WObj (update_doc put rest (sub_map (alookup k m)))) m
  end.
Definition put_json (v : prim) (t : Z) (old : option wjson) : wjson :=
  match old with
  | Some (WObj m) => WObj (ainsert "timestamp" (WInt t) (ainsert "value" (write_prim v) m))
  | _ => leaf_obj "timestamp" v t
  end.
Definition update_json (path : string) (v : prim) (t : Z) (m : doc) : doc :=
  update_doc (put_json v t) (split_on dot path) m.
Definition update_tson (path : string) (v : prim) (t : Z) (m : doc) : doc :=
  update_doc (fun _ => leaf_obj "_ts" v t) (split_on dot path) m.

(** [calculateExpectedUpdateCount] (exp/utils.go 16-37): the attributes are not counted. *)
Definition expected_count (v : vehicle) (sec : Z) : res Z :=
  foldr (fun x r => do n <- r; if decide (s_interval (snd x) = 0) then Panic else Ok (n + Z.quot (sec * 1000) (s_interval (snd x))))
    (Ok 0) (concat (take 5 v)).
