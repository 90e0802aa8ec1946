(** Properties C54-C56: the initial patches of the experiments. *)
From Verif Require Import Base F64 Tson TsonSpec Tjson TjsonSpec TjsonDemo Initial InitialSpec InitialLemmas InitialDemo.

(** C54: transformJsonStructure turns the compatible form of a TSON document into the document
    without timestamps, unless an object has members named "timestamp" and "value" ... *)
Theorem C54_transform_tson : forall t j, unstamped t -> to_compatible t = Ok j -> transform j = plain_json t.
Proof. exact transform_file. Qed.
Print Assumptions C54_transform_tson.
(** ... and leaves plain JSON without such objects alone. *)
Theorem C54_transform_json : forall j, unstamped_json j -> transform j = j.
Proof. exact transform_plain. Qed.
Print Assumptions C54_transform_json.
Example C54_case : unstamped car ∧ to_compatible car = Ok car_file ∧ transform car_file = JObj car_members.
Proof. exact (conj car_unstamped car_plain). Qed.
(** C54: on any file, exactly what it stands for. *)
Theorem C54_transform : forall j j', named (fun _ => True) j -> transform j = j' <-> stripped j j'.
Proof. exact transform_spec. Qed.
Print Assumptions C54_transform.
Example C54_case_null : named (fun _ => True) null_file ∧ transform null_file = JObj [("a", JStr ""); ("b", JArr [jn 2])].
Proof. exact null_case. Qed.
(** C54: an object with such members is taken for a leaf and the rest of it is lost. *)
Theorem C54_stamped_refuted :
  transform (compat_image stamped) = JObj [("Trip", JObj [("value", jn 2); ("timestamp", jn 9)])]
  ∧ plain_json stamped = JObj [("Trip", JObj [("timestamp", jn 1); ("value", jn 2); ("km", jn 3)])].
Proof. exact stamped_lost. Qed.
Print Assumptions C54_stamped_refuted.

(** C55: the initial patches are exactly the "add" patches at time 0, at the dotted path of the
    node, of every scalar and of the scalar members of every object that has some. *)
Theorem C55_initial : forall file m p, transform file = JObj m -> named nonempty (JObj m) ->
  p ∈ initial_patches file <->
  exists l n v, place (JObj m) l n ∧ content n v ∧ p = TPatch "add" (String.concat "." l) v 0.
Proof. exact initial_file. Qed.
Print Assumptions C55_initial.
Example C55_case : transform car_file = JObj car_members ∧ named nonempty (JObj car_members)
  ∧ initial_patches car_file =
  [TPatch "add" "Vehicle" (JObj [("Speed", jn 0)]) 0; TPatch "add" "Vehicle.Speed" (jn 0) 0;
   TPatch "add" "Vehicle" (JObj [("Speed", jn 0)]) 0;
   TPatch "add" "Vehicle.Body" (JObj [("Door", JStr "shut")]) 0;
   TPatch "add" "Vehicle.Body.Door" (JStr "shut") 0;
   TPatch "add" "Vehicle" (JObj [("Speed", jn 0)]) 0;
   TPatch "add" "Vehicle.Seats.0" (JBool true) 0; TPatch "add" "Vehicle.Seats.1" (JBool false) 0].
Proof. exact (conj (proj2 car_plain) (conj car_nonempty initial_case)). Qed.

(** C56: the temporal JSON document of the initial patches of a file and of later updates of
    its scalars shows, at every time, the initial value of each scalar below the top level
    until its first update and the value of its last update from then on, provided none
    of its updates is at time 0. *)
Theorem C56_shown : forall srt ord now file m us l v t w,
  transform file = JObj m -> named simple_name (JObj m) -> json_encodable (JObj m) = true ->
  (forall u, u ∈ us -> 0 <= tp_ts u < 2 ^ 63 ∧
     exists l' v', place (JObj m) l' v' ∧ scalar v' ∧ sets u l') ->
  sorting tp_ts srt -> (forall x, Permutation (ord x) x) -> 0 <= now < 2 ^ 63 ->
  place (JObj m) l v -> scalar v -> (2 <= length l)%nat -> 0 <= t <= now ->
  (forall u, u ∈ us -> sets u l -> 1 <= tp_ts u) ->
  shown us l v t w -> w ≠ JNull -> (forall c, w ≠ JObj c) ->
  exists w', below l (JObj (tj_snapshot (from_patches srt ord now (initial_patches file ++ us)) t)) = Some w'
    ∧ alike w' w.
Proof. exact shown_file. Qed.
Print Assumptions C56_shown.
Example C56_case : named simple_name (JObj car_members) ∧ json_encodable (JObj car_members) = true
  ∧ (forall u, u ∈ car_updates -> 0 <= tp_ts u < 2 ^ 63 ∧
       exists l' v', place (JObj car_members) l' v' ∧ scalar v' ∧ sets u l')
  ∧ (forall u, u ∈ car_updates -> 1 <= tp_ts u)
  ∧ place (JObj car_members) ["Vehicle"; "Speed"] (jn 0)
  ∧ (shown car_updates ["Vehicle"; "Speed"] (jn 0) 12 (jn 50)
     ∧ shown car_updates ["Vehicle"; "Body"; "Door"] (JStr "shut") 12 (JStr "shut"))
  ∧ tj_snapshot car_doc 12 =
    [("Vehicle", JObj [("Speed", jn 50); ("Body", JObj [("Door", JStr "shut")]);
                       ("Seats", JObj [("0", JBool true); ("1", JBool false)])])].
Proof.
  exact (conj car_named (conj car_encodable (conj car_updates_ok (conj car_late (conj car_speed (conj car_shown car_snapshot)))))).
Qed.
(** C56: an update at time 0 is not seen at time 0. *)
Theorem C56_zero_refuted : shown zero_updates ["Vehicle"; "Speed"] (jn 0) 0 (jn 50)
  ∧ below ["Vehicle"; "Speed"] (JObj (tj_snapshot
      (from_patches psort ord0 1000 (initial_patches car_file ++ zero_updates)) 0)) = Some (jn 0)
  ∧ ~ alike (jn 0) (jn 50).
Proof. exact zero_shown. Qed.
Print Assumptions C56_zero_refuted.
(** C56: nor, depending on the order sort.Slice leaves among equal times, at any time after it. *)
Theorem C56_tie_refuted : sorting tp_ts tie_sort ∧ shown zero_updates ["Vehicle"; "Speed"] (jn 0) 5 (jn 50)
  ∧ below ["Vehicle"; "Speed"] (JObj (tj_snapshot
      (from_patches tie_sort ord0 1000 (initial_patches car_file ++ zero_updates)) 5)) = Some (jn 0)
  ∧ below ["Vehicle"; "Speed"] (JObj (tj_snapshot
      (from_patches psort ord0 1000 (initial_patches car_file ++ zero_updates)) 5)) = Some (jn 50).
Proof. exact tie_lost. Qed.
Print Assumptions C56_tie_refuted.
(** C56: scalars at the top level are lost. *)
Theorem C56_root_refuted : place root_file ["Speed"] (jn 7)
  ∧ below ["Speed"] (JObj (tj_snapshot (from_patches psort ord0 1000 (initial_patches root_file)) 5)) = None.
Proof. exact root_lost. Qed.
Print Assumptions C56_root_refuted.
(** C56: arrays come back as objects. *)
Theorem C56_array_refuted :
  place (JObj car_members) ["Vehicle"; "Seats"] (JArr [JBool true; JBool false])
  ∧ below ["Vehicle"; "Seats"] (JObj (tj_snapshot car_doc 12))
    = Some (JObj [("0", JBool true); ("1", JBool false)]).
Proof. exact array_lost. Qed.
Print Assumptions C56_array_refuted.
