(** Properties C50-C53: the temporal JSON document built from patches. *)
From Verif Require Import Base F64 Tson Tjson TjsonSpec TjsonLemmas TjsonDemo TjsonSource TjsonSourceDemo.

(** C50: the period AddItem writes is the text of the two numbers, and parseTimeRange reads it
    back. *)
Theorem C50_period : forall a b, 0 <= a < 2 ^ 63 -> 0 <= b < 2 ^ 63 ->
  period (range_text a b) a b ∧ parse_range (range_text a b) = (a, b) ∧
  forall t, in_range t (range_text a b) = true <-> a <= t <= b.
Proof. exact range_ok. Qed.
Print Assumptions C50_period.
Example C50_case : range_text 20 1000 = "20-1000" ∧ parse_range "20-1000" = (20, 1000)
  ∧ in_range 20 "20-1000" = true ∧ in_range 19 "20-1000" = false.
Proof. exact (conj eq_refl (conj eq_refl (conj eq_refl eq_refl))). Qed.
(** C50: a period with a negative end is read as the single time 0. *)
Theorem C50_negative : forall a b, a < 0 ∨ b < 0 ->
  forall t, in_range t (range_text a b) = true <-> t = 0.
Proof. exact range_negative. Qed.
Print Assumptions C50_negative.
Example C50_case_negative : range_text 0 (-1) = "0--1" ∧ in_range 0 "0--1" = true.
Proof. exact (conj eq_refl eq_refl). Qed.

(** C51: TemporalTrack on the document of a patch list returns, in order of their start, the
    periods meeting the window in which the value of the path did not change: each is right at
    every moment, starts with a patch, and together they cover every moment of the window up
    to the time of construction. *)
Theorem C51_track : forall srt ord tsrt now ps q l s e res0,
  sorting tp_ts srt -> (forall m, Permutation (ord m) m) -> by_start tsrt ->
  names ["."%char] q l -> (2 <= length l)%nat -> 0 <= now < 2 ^ 63 -> times_ok l ps ->
  tj_track tsrt (from_patches srt ord now ps) q s e = Ok res0 ->
  (forall x v, (x, v) ∈ res0 -> exists a b, period x a b ∧ a <= e ∧ s <= b ∧
     (exists p, p ∈ ps ∧ sets p l ∧ tp_ts p = a ∧ tp_value p = v) ∧
     forall t, a <= t <= b -> exists w, value_at l t (srt ps) (Some w) ∧ alike v w) ∧
  (forall t w, s <= t <= e -> t <= now -> value_at l t (srt ps) (Some w) ->
     exists x v a b, (x, v) ∈ res0 ∧ period x a b ∧ a <= t <= b ∧ alike v w) ∧
  StronglySorted (fun x y => forall a b a' b',
    period (fst x) a b -> period (fst y) a' b' -> a <= a') res0.
Proof. exact track_spec. Qed.
Print Assumptions C51_track.
Example C51_case : sorting tp_ts psort ∧ (forall m, Permutation (ord0 m) m) ∧ by_start tsort ∧
  names ["."%char] "Vehicle.Speed" ["Vehicle"; "Speed"] ∧ times_ok ["Vehicle"; "Speed"] trip ∧
  tj_track tsort tripdoc "Vehicle.Speed" 5 15 = Ok [("0-9", jn 0); ("10-19", jn 50)].
Proof.
  exact (conj psort_sorting (conj ord0_perm (conj tsort_by_start
    (conj (names_by _ _ eq_refl) (conj speed_times trip_track))))).
Qed.
(** C51: it fails exactly when no patch gives a value to the path or below it. *)
Theorem C51_not_found : forall srt ord tsrt now ps q l s e,
  sorting tp_ts srt -> (forall m, Permutation (ord m) m) -> names ["."%char] q l ->
  tj_track tsrt (from_patches srt ord now ps) q s e = Err <->
  ~ exists p l', p ∈ ps ∧ sets p (l ++ l').
Proof. exact track_err. Qed.
Print Assumptions C51_not_found.
Example C51_case_found : tj_track tsort tripdoc "Vehicle" 0 9 = Ok []
  ∧ tj_track tsort tripdoc "Vehicle.Wheel" 0 9 = Err.
Proof. exact (conj eq_refl eq_refl). Qed.
(** C51: a path of one name never has an entry. *)
Theorem C51_one_name : forall srt ord tsrt now ps q n s e res0,
  sorting tp_ts srt -> (forall m, Permutation (ord m) m) -> (forall m, Permutation (tsrt m) m) ->
  names ["."%char] q [n] ->
  tj_track tsrt (from_patches srt ord now ps) q s e = Ok res0 -> res0 = [].
Proof. exact track_one. Qed.
Print Assumptions C51_one_name.
(** So a value set there is lost. *)
Theorem C51_one_name_refuted : value_at ["Solo"] 7 (psort trip) (Some (jn 1)) ∧
  below ["Solo"] (JObj (tj_snapshot tripdoc 7)) = None ∧
  tj_track tsort tripdoc "Solo" 0 1000 = Ok [].
Proof. exact solo_refuted. Qed.
Print Assumptions C51_one_name_refuted.
(** C51: a value set later than the time of construction (the clock counts seconds) is
    reported for no window after it. *)
Theorem C51_late_refuted : value_at ["a"; "b"] 6000 (psort late) (Some (jn 1)) ∧
  tj_track tsort (from_patches psort ord0 1000 late) "a.b" 5500 7000 = Ok [].
Proof. exact late_refuted. Qed.
Print Assumptions C51_late_refuted.
(** C51: the members "a.b"/"c" and "a"/"b"/"c" share a history. *)
Theorem C51_clash_refuted : tj_track tsort (from_patches psort ord0 1000 clash) "a.b.c" 0 2000
  = Ok [("5-5", jn 1); ("6-1000", jn 2)].
Proof. exact clash_refuted. Qed.
Print Assumptions C51_clash_refuted.

(** C52: TemporalSnapshot shows the value in force at the time for every path of two names or
    more whose ancestors were only ever given objects. *)
Theorem C52_snapshot : forall srt ord now ps q l t w,
  sorting tp_ts srt -> (forall m, Permutation (ord m) m) -> names ["."%char] q l ->
  (2 <= length l)%nat -> 0 <= now < 2 ^ 63 -> times_ok l ps ->
  t <= now -> value_at l t (srt ps) (Some w) -> w ≠ JNull ->
  (forall m, w ≠ JObj m) ∨
    (forall p k r, p ∈ ps -> ~ sets p (l ++ k :: r)) ∧
    (forall p m, p ∈ ps -> sets p l -> tp_value p = JObj m -> NoDup (map fst m)) ->
  (forall p pre k r, p ∈ ps -> l = pre ++ k :: r -> (2 <= length pre)%nat -> sets p pre ->
     exists m, tp_value p = JObj m) ->
  exists w', below l (JObj (tj_snapshot (from_patches srt ord now ps) t)) = Some w' ∧ alike w' w.
Proof. exact snapshot_spec. Qed.
Print Assumptions C52_snapshot.
Example C52_case : times_ok ["Vehicle"; "Body"; "Door"] trip ∧
  value_at ["Vehicle"; "Body"; "Door"] 7 (psort trip) (Some (JStr "open")) ∧
  (forall p pre k r, p ∈ trip -> ["Vehicle"; "Body"; "Door"] = pre ++ k :: r ->
     (2 <= length pre)%nat -> sets p pre -> exists m, tp_value p = JObj m) ∧
  tj_snapshot tripdoc 14
  = [("Vehicle", JObj [("Speed", jn 50);
       ("Body", JObj [("Lights", JBool false); ("Door", JStr "open")])])].
Proof. exact (conj door_times (conj (proj2 (proj2 trip_value)) (conj door_ancestors trip_snapshot))). Qed.
(** C52: everything a snapshot shows that is not an object was given by a patch, at its path or
    as part of a value given above it; a null is only shown as part of such a value. *)
Theorem C52_source : forall srt ord now ps t l v,
  sorting tp_ts srt -> (forall m, Permutation (ord m) m) ->
  (forall p m, p ∈ ps -> tp_value p = JObj m -> NoDup (map fst m)) ->
  below l (JObj (tj_snapshot (from_patches srt ord now ps) t)) = Some v -> (forall m, v ≠ JObj m) ->
  exists p pre r, p ∈ ps ∧ sets p pre ∧ l = pre ++ r ∧ (2 <= length pre)%nat ∧
    below r (tp_value p) = Some v ∧ (v = JNull -> r ≠ []).
Proof. exact snapshot_source. Qed.
Print Assumptions C52_source.
Example C52_source_case : (forall p m, p ∈ nulls -> tp_value p = JObj m -> NoDup (map fst m)) ∧
  let s := JObj (tj_snapshot (from_patches psort ord0 1000 nulls) 5) in
  below ["a"; "b"; "y"] s = Some (jn 1) ∧ below ["a"; "b"; "x"] s = Some JNull ∧ below ["a"; "c"] s = None.
Proof. exact nulls_case. Qed.
(** C52: removed values and values not yet set are shown all the same. *)
Theorem C52_absent_refuted :
  value_at ["Vehicle"; "Speed"] 35 (psort trip) None ∧
  below ["Vehicle"; "Speed"] (JObj (tj_snapshot tripdoc 35)) = Some (jn 80) ∧
  value_at ["Vehicle"; "Body"; "Door"] 2 (psort trip) None ∧
  below ["Vehicle"; "Body"; "Door"] (JObj (tj_snapshot tripdoc 2)) = Some (JStr "open").
Proof. exact gone_refuted. Qed.
Print Assumptions C52_absent_refuted.
(** C52: a second patch at time 0 leaves the first one's value in the snapshot at 0. *)
Theorem C52_tie_refuted : value_at ["a"; "b"] 0 (psort tie) (Some (jn 2)) ∧
  below ["a"; "b"] (JObj (tj_snapshot (from_patches psort ord0 1000 tie) 0)) = Some (jn 1) ∧
  ~ alike (jn 1) (jn 2).
Proof. exact tie_refuted. Qed.
Print Assumptions C52_tie_refuted.
(** C52: below a value that is no object nothing is shown. *)
Theorem C52_shadow_refuted : value_at ["a"; "b"; "c"] 7 (psort shadow) (Some (jn 2)) ∧
  below ["a"; "b"; "c"] (JObj (tj_snapshot (from_patches psort ord0 1000 shadow) 7)) = None.
Proof. exact shadow_refuted. Qed.
Print Assumptions C52_shadow_refuted.

(** C53: FindEvents reports, in order, times of patches whose value satisfies the predicate,
    and for every moment of the window at which it holds, one since which it has held. *)
Theorem C53_events : forall srt ord tsrt now ps q l s e pred xs,
  sorting tp_ts srt -> (forall m, Permutation (ord m) m) -> by_start tsrt ->
  names ["."%char] q l -> (2 <= length l)%nat -> 0 <= now < 2 ^ 63 -> times_ok l ps ->
  (forall v w, alike v w -> pred v = pred w) ->
  tj_events tsrt (from_patches srt ord now ps) q s e pred = Ok xs ->
  (forall x, x ∈ xs -> x <= e ∧
     exists p, p ∈ ps ∧ sets p l ∧ tp_ts p = x ∧ pred (tp_value p) = true) ∧
  (forall t w, s <= t <= e -> t <= now -> value_at l t (srt ps) (Some w) -> pred w = true ->
     exists x, x ∈ xs ∧ x <= t ∧
       forall u, x <= u <= t -> exists w', value_at l u (srt ps) (Some w') ∧ pred w' = true) ∧
  StronglySorted Z.le xs.
Proof. exact events_spec. Qed.
Print Assumptions C53_events.
Example C53_case : times_ok ["Vehicle"; "Body"; "Door"] trip ∧
  names ["."%char] "Vehicle.Body.Door" ["Vehicle"; "Body"; "Door"] ∧
  tj_events tsort tripdoc "Vehicle.Body.Door" 0 900
    (fun j => match j with JStr x => bool_decide (x = "open") | _ => false end) = Ok [5] ∧
  tj_events tsort tripdoc "Vehicle.Speed" 5 40
    (fun j => match j with JNum x => f64_eq x (f64_of_Z 80) | _ => false end) = Ok [20].
Proof. exact (conj door_times (conj (names_by _ _ eq_refl) (conj door_events trip_events))). Qed.
