(** Concrete cases and witnesses for [Prop_Query.v]. *)
From Verif Require Import Base BaseSpec BaseLemmas F64 Tson TsonInd TsonSpec Heap HeapSpec Patch PatchSpec Serial Logument LogSpec ReplaySpec Json GoText
  Tjson TjsonSpec TjsonLemmas TjsonDemo Initial InitialSpec InitialLemmas InitialDemo Query QuerySpec QueryLemmas QueryTrack QueryAgree LogDemo.
From Coq Require Import Lia.

Definition drive : list tpatch :=
  [TPatch "replace" "Vehicle.Speed" (jn 50) 10; TPatch "replace" "Vehicle.Body.Door" (JStr "open") 15;
   TPatch "replace" "Vehicle.Speed" (jn 80) 20; TPatch "replace" "Vehicle.Speed" (jn 30) 30].
Definition drive_lib : textlib := go_lib (fun _ => true).
Ltac member H := repeat apply elem_of_cons in H as [->|H]; [..|by apply elem_of_nil in H].
Lemma car_both : named both_name (JObj car_members).
Proof.
  assert (F : forall k, k <> "" -> free_of ["/"; "."; "~"]%char k -> both_name k).
  { intros k Hk Hf. split; [split; [done|]|done]. clear Hk. induction Hf as [|a s Ha Hf IH]; [constructor|]. constructor; [|done].
    intros Hin. apply Ha. simpl in *. tauto. }
  repeat first [ apply nd_scalar; apply scalar_by; reflexivity
               | apply nd_obj | apply nd_arr
               | apply F; [done|repeat (constructor; [intros [[=]|[[=]|[[=]|[]]]]|]); constructor]
               | apply NoDup_nil_2
               | apply Forall_nil_2 | apply Forall_cons_2
               | apply NoDup_cons_2; [set_solver|] ].
Qed.
Lemma car_full : jnull_free (JObj car_members) = true.
Proof. reflexivity. Qed.
Lemma drive_ok u : u ∈ drive -> 0 <= tp_ts u < 2 ^ 63 ∧ exists l, updates car_members u l.
Proof.
  intros H. member H; (split; [cbn [tp_ts]; lia|]).
  - exists ["Vehicle"; "Speed"]. split; [by right|]. split; [done|]. split; [by apply scalar_by|]. split; [done|]. exists (jn 0). split; [done|by apply scalar_by].
  - exists ["Vehicle"; "Body"; "Door"]. split; [by right|]. split; [done|]. split; [by apply scalar_by|]. split; [done|]. exists (JStr "shut"). split; [done|by apply scalar_by].
  - exists ["Vehicle"; "Speed"]. split; [by right|]. split; [done|]. split; [by apply scalar_by|]. split; [done|]. exists (jn 0). split; [done|by apply scalar_by].
  - exists ["Vehicle"; "Speed"]. split; [by right|]. split; [done|]. split; [by apply scalar_by|]. split; [done|]. exists (jn 0). split; [done|by apply scalar_by].
Qed.
Definition asks : list (oracle * Z) := [(fwd, 5); (fwd, 12); (fwd, 25)].
Lemma asks_ok : Forall (fun q => oracle_ok (fst q)) asks ∧ StronglySorted Z.le (map snd asks) ∧ asks <> [].
Proof.
  split; [|split; [|done]].
  - repeat constructor; apply fwd_ok.
  - cbn. repeat constructor; lia.
Qed.
Definition car_then (s : Z) (zs : Z) (d : string) (zd : Z) : tson :=
  TObj [("Vehicle", TObj [("Speed", TLeaf (PNum (f64_of_Z s)) zs); ("Body", TObj [("Door", TLeaf (PStr d) zd)]);
                          ("Seats", TArr [TLeaf (PBool true) (-1); TLeaf (PBool false) (-1)])])].
Definition ask (qs : list (oracle * Z)) : res (list tson) :=
  match create_logument drive_lib car_file drive [] with
  | (h, Ok L) => snd (snapshot_run qs (h, L))
  | _ => Panic
  end.
Lemma asks_answers : ask asks = Ok [TNil; car_then 50 10 "shut" (-1); car_then 80 20 "open" 15].
Proof. vm_compute. reflexivity. Qed.
Lemma drive_stands : stands drive ["Vehicle"; "Speed"] (jn 0) 25 (jn 80) 20 ∧ stands drive ["Vehicle"; "Body"; "Door"] (JStr "shut") 12 (JStr "shut") (-1).
Proof.
  split.
  - apply (std_update _ _ _ _ (TPatch "replace" "Vehicle.Speed" (jn 80) 20)); [by do 2 right; left|done|cbn; lia|].
    intros u H. member H; intros Hp Ht; cbn [tp_ts tp_path] in *; [right; lia|done|by left|lia].
  - apply std_initial. intros u H. member H; intros Hp; cbn [tp_ts tp_path] in *; [done|lia|done|done].
Qed.
(** Asked again for an earlier time, the log still shows the door open. *)
Lemma asks_back : ask [(fwd, 25); (fwd, 12)] = Ok [car_then 80 20 "open" 15; car_then 50 10 "open" 15]
  ∧ stands drive ["Vehicle"; "Body"; "Door"] (JStr "shut") 12 (JStr "shut") (-1).
Proof. split; [vm_compute; reflexivity|apply drive_stands]. Qed.

(** Events. *)
Lemma drive_distinct : distinct_times drive "Vehicle.Speed".
Proof.
  intros a u b u' c E Hp Hp'.
  assert (Hf : filter (fun u => tp_path u = "Vehicle.Speed") drive = filter (fun u => tp_path u = "Vehicle.Speed") a ++ u :: filter (fun u => tp_path u = "Vehicle.Speed") b ++ u' :: filter (fun u => tp_path u = "Vehicle.Speed") c).
  { rewrite E. rewrite filter_app, filter_cons_True by done. rewrite filter_app, filter_cons_True by done. done. }
  intros Et. assert (HN : NoDup (map tp_ts (filter (fun u => tp_path u = "Vehicle.Speed") drive))).
  { vm_compute. repeat (constructor; [set_solver|]). constructor. }
  rewrite Hf, map_app in HN. cbn [map] in HN. rewrite map_app in HN. cbn [map] in HN.
  apply NoDup_app in HN as (_ & _ & HN). apply NoDup_cons in HN as [HN _]. apply HN. rewrite Et. apply elem_of_app. right. left.
Qed.
Definition search (qs : list (oracle * Z)) (s e thr : Z) : res (list Z) :=
  match create_logument drive_lib car_file drive [] with
  | (h, Ok L) => snd (find_events (fun x => x) "Vehicle.Speed" s e (f64_of_Z thr) (fst (snapshot_run qs (h, L))))
  | _ => Panic
  end.
Lemma drive_found : search asks 1 40 40 = Ok [10; 20] ∧ search [] 1 40 40 = Ok [].
Proof. split; vm_compute; reflexivity. Qed.
Lemma drive_event : event drive "Vehicle.Speed" 1 40 (f64_of_Z 40) 20.
Proof.
  exists (TPatch "replace" "Vehicle.Speed" (jn 80) 20), (f64_of_Z 80). split; [by do 2 right; left|]. do 2 (split; [done|]).
  split; [lia|]. split; [done|]. split; [vm_compute; reflexivity|]. intros u H.
  member H; intros Hp Ht Hno; cbn [tp_ts tp_path tp_value] in *; try done; try lia.
  intros H. apply json_deep_eq_spec in H. by vm_compute in H.
Qed.
Lemma drive_changing : changing drive ["Vehicle"; "Speed"] (jn 0).
Proof.
  intros u w z H Hp Hst. 
  assert (Hw : forall a b, json_deep_eq a b = false -> a <> b -> ~ alike a b).
  { intros a b Hd Hne [->|Hs]; [done|]. apply json_deep_eq_spec in Hs. congruence. }
  member H; cbn [tp_ts tp_path tp_value] in *; try done; destruct Hst as [Hno|u Hu Hpu Htu Hmax].
  - apply Hw; [vm_compute; reflexivity|by intros [=]].
  - member Hu; cbn [tp_ts tp_path tp_value] in *; try done; lia.
  - specialize (Hno (TPatch "replace" "Vehicle.Speed" (jn 50) 10) ltac:(by left) eq_refl). cbn in Hno. lia.
  - member Hu; cbn [tp_ts tp_path tp_value] in *; try done; try lia. apply Hw; [vm_compute; reflexivity|by intros [=]].
  - specialize (Hno (TPatch "replace" "Vehicle.Speed" (jn 50) 10) ltac:(by left) eq_refl). cbn in Hno. lia.
  - member Hu; cbn [tp_ts tp_path tp_value] in *; try done; try lia; [|apply Hw; [vm_compute; reflexivity|by intros [=]]].
    destruct (Hmax (TPatch "replace" "Vehicle.Speed" (jn 80) 20) ltac:(by do 2 right; left) eq_refl) as [Hx|Hx]; cbn in *; try lia. done.
Qed.
Lemma drive_late u : u ∈ drive -> 1 <= tp_ts u.
Proof. intros H. member H; cbn; lia. Qed.
Definition drive_doc : tdoc := from_patches psort ord0 1000 (initial_patches car_file ++ drive).
Lemma drive_doc_found : tj_events tsort drive_doc "Vehicle.Speed" 1 40 (over_threshold (f64_of_Z 40)) = Ok [10; 20].
Proof. vm_compute. reflexivity. Qed.
(** A window beginning inside a period: the document reports the start of the period, the log does
    not. *)
Lemma drive_before : tj_events tsort drive_doc "Vehicle.Speed" 15 40 (over_threshold (f64_of_Z 40)) = Ok [10; 20] ∧ search asks 15 40 40 = Ok [20].
Proof. split; vm_compute; reflexivity. Qed.
Lemma drive_snapshots : below ["Vehicle"; "Speed"] (JObj (tj_snapshot drive_doc 25)) = Some (jn 80)
  ∧ at_path (car_then 80 20 "open" 15) (keys ["Vehicle"; "Speed"]) = Some (TLeaf (PNum (f64_of_Z 80)) 20).
Proof. split; vm_compute; reflexivity. Qed.
(** Before the first update the log answers null, the document shows the initial values. *)
Lemma drive_null : ask [(fwd, 5)] = Ok [TNil] ∧ below ["Vehicle"; "Speed"] (JObj (tj_snapshot drive_doc 5)) = Some (jn 0).
Proof. split; vm_compute; reflexivity. Qed.
(** Setting the value that is there already: no event for the document, but one for the log if the
    update is the first in the window. *)
Definition idle : list tpatch := [TPatch "replace" "Vehicle.Speed" (jn 50) 10; TPatch "replace" "Vehicle.Speed" (jn 50) 20].
Lemma idle_found : (exists h L st ds, create_logument drive_lib car_file idle [] = (h, Ok L) ∧ snapshot_run asks (h, L) = (st, Ok ds)
    ∧ snd (find_events (fun x => x) "Vehicle.Speed" 15 40 (f64_of_Z 40) st) = Ok [20])
  ∧ tj_events tsort (from_patches psort ord0 1000 (initial_patches car_file ++ idle)) "Vehicle.Speed" 15 40 (over_threshold (f64_of_Z 40)) = Ok [10].
Proof.
  split; [|vm_compute; reflexivity].
  destruct (create_logument drive_lib car_file idle []) as [h [L| |]] eqn:E; [|vm_compute in E; discriminate E..].
  destruct (snapshot_run asks (h, L)) as [st [ds| |]] eqn:E'; [|vm_compute in E; injection E as <- <-; vm_compute in E'; discriminate E'..].
  exists h, L, st, ds. do 2 (split; [done|]). vm_compute in E. injection E as <- <-. vm_compute in E'. injection E' as <- <-. vm_compute. reflexivity.
Qed.
(** The track of one path. *)
Definition driven : state :=
  match create_logument drive_lib car_file drive [] with
  | (h, Ok L) => fst (snapshot_run asks (h, L))
  | (h, _) => (h, log0)
  end.
Definition track_of (path : string) (s e : Z) : option (list operation) :=
  match snd (temporal_track s e driven) with Ok m => filter_track m path !! 1%N | _ => None end.
Lemma drive_track : track_of "Vehicle.Speed" 12 40 =
    Some [operation_of (TPatch "replace" "Vehicle.Speed" (jn 80) 20); operation_of (TPatch "replace" "Vehicle.Speed" (jn 30) 30)].
Proof. vm_compute. reflexivity. Qed.
