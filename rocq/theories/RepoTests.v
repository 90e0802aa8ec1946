(** The tests of the repository run on the model (internal/tson/tson_test.go,
    internal/tsonpatch/tsonpatch_test.go, internal/logument/logument_test.go,
    internal/vssgen/vss_test.go, examples/).  These are
    checks of the model, not properties: each says what the test asserts or names in a comment, or, where
    the test does not hold, what happens instead. *)
From Verif Require Import Base F64 Tson Serial GoText Heap Patch Diff Bytes Logument LogDemo.
From Verif Require Json Vss Listing.

Definition example1 : string := "{
    ""vehicleId"" <1700000000>: ""ABC1234"",
    ""speed"" <1700000000>: 72.5,
    ""engineOn"" <1700000000>: true,
    ""location"": {
        ""latitude"" <1700000000>: 37.7749,
        ""longitude"" <1700000000>: -122.4194
    },
    ""tirePressure"": [
        <> 32.1,
        <> 31.8,
        <1700000000> 32.0,
        <1700000000> 31.9
    ]
}".
Definition example2 : string := "{
    ""vehicleId"" <1700000000>: ""ABC1234"",
    ""speed"" <2000000000>: 72.5,
    ""engineOn"" <2000000000>: false,
    ""location"": {
        ""latitude"" <2000000000>: 37.7749,
        ""longitude"" <2000000000>: -150.4194
    },
    ""tirePressure"": [
        <2000000000> 35.1,
        <1700000000> 31.8,
        <1700000000> 32.0,
        <1700000000> 31.9
    ]
}".
Definition example1_json : string := "{
    ""vehicleId"": ""ABC1234"",
    ""speed"": 72.5,
    ""engineOn"": true,
    ""location"": {
        ""latitude"": 37.7749,
        ""longitude"": -122.4194
    },
    ""tirePressure"": [
        32.1,
        31.8,
        32.0,
        31.9
    ]
}".
Definition stored0 : string := "[
		{ ""op"": ""replace"", ""path"": ""/location/latitude"", ""value"": 43.9409, ""timestamp"": 1800000000 },
		{ ""op"": ""replace"", ""path"": ""/location/longitude"", ""value"": -150.4194, ""timestamp"": 1800000000 },
		{ ""op"": ""replace"", ""path"": ""/tirePressure/0"", ""value"": 35.1, ""timestamp"": 1900000000 }
	]".
Definition stored1 : string := "[
		{ ""op"": ""replace"", ""path"": ""/engineOn"", ""value"": false, ""timestamp"": 2000000000 }
	]".
Definition stored2 : string := "[
		{ ""op"": ""replace"", ""path"": ""/location/latitude"", ""value"": 43.9409, ""timestamp"": 2100000000 },
		{ ""op"": ""replace"", ""path"": ""/location/longitude"", ""value"": -150.4194, ""timestamp"": 2100000000 }
	]".
Definition stored3 : string := "[
		{ ""op"": ""replace"", ""path"": ""/tirePressure/2"", ""value"": 33.7, ""timestamp"": 2300000000 },
		{ ""op"": ""replace"", ""path"": ""/speed"", ""value"": 94.9, ""timestamp"": 2400000000 }
	]".
Definition patch1 : string := "[
	{ ""op"": ""replace"", ""path"": ""/location/longitude"", ""value"": -150.4194, ""timestamp"": 2000000000 },
	{ ""op"": ""replace"", ""path"": ""/tirePressure/0"", ""value"": 35.1, ""timestamp"": 2000000000 },
	{ ""op"": ""replace"", ""path"": ""/engineOn"", ""value"": false, ""timestamp"": 2000000000 }
]".
Definition case0 : string := "
		{
			""name"" <1678886400>: ""John Doe"",
			""age"" <1678886400>: 30,
			""is-married"" <1678886400>: true,
			""address"": {
				""street"" <1678886400>: ""123 Main St"",
				""city"" <1678886400>: ""Anytown""
			},
			""hobbies"": [
				<1678886400> ""reading"",
				<1678886400> ""hiking""
			]
		}".
Definition case1 : string := "{ ""name"": ""John Doe"", }".
Definition case2 : string := "{""name"" <1678886400>: }".
Definition case3 : string := "{""name"" <>: ""John Doe""}".

Definition lib : textlib := go_lib (fun _ => true).
(** A decimal number of the sources. *)
Definition dec (neg : bool) (n : positive) (k : nat) : f64 := f64_of_ratio neg n (pow10 k).
Definition parsed (s : string) : tson := match unmarshal lib s with Ok t => t | _ => TNil end.

(** ** internal/tson/tson_test.go *)
(** TestUnmarshal. *)
Example unmarshal_valid : unmarshal lib case0 = Ok (
  let ts := 1678886400 in
  TObj [("name", TLeaf (PStr "John Doe") ts); ("age", TLeaf (PNum (f64_of_Z 30)) ts); ("is-married", TLeaf (PBool true) ts);
        ("address", TObj [("street", TLeaf (PStr "123 Main St") ts); ("city", TLeaf (PStr "Anytown") ts)]);
        ("hobbies", TArr [TLeaf (PStr "reading") ts; TLeaf (PStr "hiking") ts])]).
Proof. vm_compute. reflexivity. Qed.
Example unmarshal_invalid : unmarshal lib case1 = Err.
Proof. vm_compute. reflexivity. Qed.
Example unmarshal_missing : unmarshal lib case2 = Err.
Proof. vm_compute. reflexivity. Qed.
Example unmarshal_omitted : unmarshal lib case3 = Ok (TObj [("name", TLeaf (PStr "John Doe") (-1))]).
Proof. vm_compute. reflexivity. Qed.

(** TestParsedData and TestGetValue. *)
Definition doc1 : tson := parsed example1.
Definition doc2 : tson := parsed example2.
Example parsed_ok : unmarshal lib example1 = Ok doc1 ∧ unmarshal lib example2 = Ok doc2 ∧ (exists m, doc1 = TObj m).
Proof. vm_compute. eauto. Qed.
Example parsed_id : get_value doc1 "/vehicleId" = Ok (TLeaf (PStr "ABC1234") 1700000000).
Proof. vm_compute. reflexivity. Qed.
Example parsed_location : get_value doc1 "/location/latitude" = Ok (TLeaf (PNum (dec false 377749 4)) 1700000000)
  ∧ get_value doc1 "/location/longitude" = Ok (TLeaf (PNum (dec true 1224194 4)) 1700000000).
Proof. vm_compute. done. Qed.
Example parsed_tires : exists l, get_value doc1 "/tirePressure" = Ok (TArr l)
  ∧ to_array l = Ok [PNum (dec false 321 1); PNum (dec false 318 1); PNum (f64_of_Z 32); PNum (dec false 319 1)].
Proof. eexists. vm_compute. done. Qed.
Example parsed_tire : get_value doc1 "/tirePressure/0" = Ok (TLeaf (PNum (dec false 321 1)) (-1)).
Proof. vm_compute. reflexivity. Qed.
(** TestGetTimestamp. *)
Example latest : latest_timestamp doc2 = Ok 2000000000.
Proof. vm_compute. reflexivity. Qed.
(** TestToTson: no error. *)
Example to_tson : exists t, Json.from_json_bytes lib example1_json = Ok t ∧ equal_without_timestamp t doc1 = Ok true.
Proof. eexists. split; [vm_compute; reflexivity|]. vm_compute. reflexivity. Qed.
(** TestMarshalIndent: the text reads back. *)
Example indent_reads : unmarshal lib (marshal_indent lib doc1 "" "  ") = Ok doc1.
Proof. vm_compute. reflexivity. Qed.

(** ** internal/tsonpatch/tsonpatch_test.go *)
(** TestGeneratePatch: no error. *)
Definition generated : list operation := match generate_patch doc1 doc2 with Ok p => p | _ => [] end.
Example generates : generate_patch doc1 doc2 = Ok generated.
Proof. vm_compute. reflexivity. Qed.
Definition applied (t : tson) (p : list operation) : option tson :=
  let '(h, v) := alloc_tree [] t in
  match apply_patch h v p with (h', Ok v') => read h' v' | _ => None end.
(** TestApplyPatch and TestApplyPatchWithJson assert that the result equals the second example.  It does
    not: a path that begins with a slash names a member "" (see C19), so both tests fail. *)
Definition patch_of (s : string) : list operation :=
  match Json.unmarshal lib s with Ok (Some p) => p | _ => [] end.
Example patch_reads : Json.unmarshal lib patch1 = Ok (Some (patch_of patch1)) ∧ length (patch_of patch1) = 3%nat.
Proof. vm_compute. done. Qed.
Definition same (t u : tson) : bool := match equal_without_timestamp t u with Ok b => b | _ => false end.
Definition added (p : list operation) : tson := match applied doc1 p with Some t => t | None => TNil end.
Example apply_fails : forallb (fun p =>
    match doc1, added p with
    | TObj m, TObj m' => bool_decide (map fst m' = map fst m ++ [""])
        && same doc1 (TObj (take (length m) m'))
        && negb (same doc2 (TObj m'))
    | _, _ => false
    end) [generated; patch_of patch1] = true.
Proof. vm_compute. reflexivity. Qed.
(** Without the slash they hold. *)
Definition unslashed (p : operation) : operation :=
  match op_path p with String _ s => Op (op_kind p) s (op_value p) (op_ts p) | _ => p end.
Example apply_unslashed : forallb (fun p => same doc2 (added (map unslashed p)))
  [generated; patch_of patch1] = true.
Proof. vm_compute. reflexivity. Qed.

(** ** internal/logument/logument_test.go *)
(** TestCreate and TestStore: the log of example 1 with texts stored in it. *)
Definition json_input (s : string) : patch_input := PI_json (Json.read_patch lib s).
Definition created (p : option patch_input) : state :=
  match new_logument lib (SI_text example1) p [] with (h, Ok L) => (h, L) | (h, _) => (h, log0) end.
Example creates : snd (new_logument lib (SI_text example1) (Some (json_input stored0)) []) <> Panic
  ∧ l_version (snd (created (Some (json_input stored0)))) = [0%N]
  ∧ l_pool (snd (created (Some (json_input stored0)))) = Some (patch_of stored0)
  ∧ read (fst (created None)) (l_current (snd (created None))) = Some doc1.
Proof. split; [intros H; vm_compute in H; discriminate|]. vm_compute. done. Qed.
Example creates_patches : l_pool (snd (created (Some (PI_patches [Some (patch_of stored0); Some (patch_of stored1)]))))
  = Some (patch_of stored0 ++ patch_of stored1) ∧ length (patch_of stored0 ++ patch_of stored1) = 4%nat.
Proof. vm_compute. done. Qed.
Definition put (s : string) : call := CStore (json_input s).
Example stores : l_pool (snd (run (created None) [put stored0; put stored1])) = Some (patch_of stored0 ++ patch_of stored1).
Proof. vm_compute. reflexivity. Qed.

(** TestApply, and the log of the other tests. *)
Definition version1 : state := run (created None) [put stored0; put stored1; CAppend].
Definition version2 : state := run version1 [put stored2; CAppend].
Definition version3 : state := run version2 [put stored3; CAppend].
Definition patches_of (L : logument) : list (N * list operation) :=
  map (fun v => (v, patch_at L v)) (l_version L).
Example applies : l_version (snd version1) = [0; 1]%N ∧ l_pool (snd version1) = None
  ∧ l_patches (snd version1) !! 1%N = Some (patch_of stored0 ++ patch_of stored1).
Proof. vm_compute. done. Qed.
Example three_versions : patches_of (snd version3) =
  [(0%N, []); (1%N, patch_of stored0 ++ patch_of stored1); (2%N, patch_of stored2); (3%N, patch_of stored3)].
Proof. vm_compute. reflexivity. Qed.

(** TestSnapshot, TestTemporalSnapshot. *)
Definition content (x : state * res val) : tson :=
  match x with ((h, _), Ok v) => default TNil (read h v) | _ => TNil end.
Definition below (t : tson) (path : string) : option tson := match get_value t path with Ok v => Some v | _ => None end.
Definition leaf (neg : bool) (n : positive) (k : nat) (ts : Z) : tson := TLeaf (PNum (dec neg n k)) ts.
Example snapshots : same (content (snapshot 0 version1)) doc1 = true
  ∧ snd (snapshot 3 version1) = Panic
  ∧ (let t := content (snapshot 1 version1) in
     map (below t) ["/location/latitude"; "//location/latitude"; "//location/longitude"; "//tirePressure/0"; "//engineOn"]
     = map Some [leaf false 377749 4 1700000000; leaf false 439409 4 1800000000; leaf true 1504194 4 1800000000;
                 leaf false 351 1 1900000000; TLeaf (PBool false) 2000000000]).
Proof. vm_compute. done. Qed.
Example temporal_snapshots :
  (let t := content (temporal_snapshot fwd 1900000000 version1) in
   map (below t) ["//location/latitude"; "//location/longitude"; "//tirePressure/0"; "//engineOn"]
   = [Some (leaf false 439409 4 1800000000); Some (leaf true 1504194 4 1800000000); Some (leaf false 351 1 1900000000); None]).
Proof. vm_compute. done. Qed.

(** TestSlice. *)
Definition sliced : logument := match slice 1 3 version3 with (_, Ok R) => R | _ => log0 end.
Example slices : l_version sliced = [1; 2; 3]%N ∧ map fst (map_to_list (l_snapshots sliced)) = [1%N] ∧
  map (patch_at sliced) [1; 2; 3]%N = [patch_of stored0 ++ patch_of stored1; patch_of stored2; patch_of stored3].
Proof. vm_compute. done. Qed.

(** TestTrack and TestTemporalTrack with the results named in their comments. *)
Definition found (r : res (gmap N (list operation))) : list operation :=
  match r with Ok m => default [] (m !! 1%N) ++ default [] (m !! 2%N) ++ default [] (m !! 3%N) | _ => [] end.
Definition replace (path : string) (x : f64) (ts : Z) : operation := Op OReplace path (ANum x) ts.
Example tracks : found (snd (track 2 3 version3)) = [
  replace "/location/latitude" (dec false 439409 4) 2100000000; replace "/location/longitude" (dec true 1504194 4) 2100000000;
  replace "/tirePressure/2" (dec false 337 1) 2300000000; replace "/speed" (dec false 949 1) 2400000000].
Proof. vm_compute. reflexivity. Qed.
Example temporal_tracks : found (snd (temporal_track 1900000000 2100000000 version3)) = [
  replace "/tirePressure/0" (dec false 351 1) 1900000000; Op OReplace "/engineOn" (ABool false) 2000000000;
  replace "/location/latitude" (dec false 439409 4) 2100000000; replace "/location/longitude" (dec true 1504194 4) 2100000000].
Proof. vm_compute. reflexivity. Qed.

(** TestSet, TestValidSet, TestCompact, TestHistory. *)
Definition new_latitude : operation := replace "/location/latitude" (dec false 424242 4) 0.
Definition now (st : state) : tson := default TNil (read (fst st) (l_current (snd st))).
Example sets : l_pool (snd (run version2 [CSet new_latitude])) = Some [new_latitude]
  ∧ below (now (run version2 [CSet new_latitude])) "//location/latitude" = Some (leaf false 424242 4 0)
  ∧ below (now (run version2 [CSet new_latitude])) "/location/latitude" = Some (leaf false 377749 4 1700000000).
Proof. vm_compute. done. Qed.
Example valid_sets : l_pool (snd (run version2 [CTestSet new_latitude]))
  = Some [Op OAdd "/location/latitude" (ANum (dec false 424242 4)) 0].
Proof. vm_compute. reflexivity. Qed.
Example compacts : patches_of (snd (run version2 [CCompact "/location"])) =
  [(0%N, []); (1%N, patch_of stored0 ++ patch_of stored1); (2%N, [])].
Proof. vm_compute. reflexivity. Qed.
Example histories : snd (history fwd "/location" version2) = Ok [
  ("/location/latitude", [Op OAdd "/location/latitude" (ATson (leaf false 377749 4 1700000000)) 0;
                          replace "/location/latitude" (dec false 439409 4) 1800000000]);
  ("/location/longitude", [Op OAdd "/location/longitude" (ATson (leaf true 1224194 4 1700000000)) 0;
                           replace "/location/longitude" (dec true 1504194 4) 1800000000])].
Proof. vm_compute. reflexivity. Qed.

(** TestSimpleCaseWithLogument.  Its comments expect the second call to change nothing, as the value is the
    one set before.  TestSet compares with the snapshot of the last version, in which it is still 10,
    so all three operations are recorded. *)
Definition simple : state :=
  let '(h, v) := alloc_tree [] (TObj [("value", TLeaf (PNum (f64_of_Z 10)) 1000)]) in
  match new_logument lib (SI_doc v) None h with (h', Ok L) => (h', L) | (h', _) => (h', log0) end.
Definition to (x ts : Z) : operation := replace "/value" (f64_of_Z x) ts.
Definition simple_end : state :=
  run simple [CTestSet (to 20 2000); CSnapshot 0; CTestSet (to 20 3000); CSnapshot 0; CTestSet (to 40 4000); CSnapshot 0].
Example simple_case : l_version (snd simple_end) = [0%N] ∧ map_to_list (l_patches (snd simple_end)) = []
  ∧ l_pool (snd simple_end) = Some [to 20 2000; to 20 3000; to 40 4000].
Proof. vm_compute. done. Qed.

(** ** internal/vssgen/vss_test.go *)
Definition vss_data : wjson := WObj [
  ("a", WStr "A"); ("b", WStr "B");
  ("c", WObj [("c1", WStr "C1"); ("c2", WStr "C2"); ("c3", WObj [("c3_1", WStr "C3_1"); ("c3_2", WStr "C3_2")]);
              ("c4", WArr [WStr "C4_1"; WStr "C4_2"]); ("d", WStr "D")])].
Definition listing : string := "00001: {
00002:     ""a"": ""A"",
00003:     ""b"": ""B"",
00004:     ""c"": {
00005:         ""c1"": ""C1"",
00006:         ""c2"": ""C2"",
00007:         ""c3"": {
00008:             ""c3_1"": ""C3_1"",
00009:             ""c3_2"": ""C3_2""
00010:         },
00011:         ""c4"": [
00012:             ""C4_1"",
00013:             ""C4_2""
00014:         ],
00015:         ""d"": ""D""
00016:     }
00017: }
".
(** TestPrintWithIndex on the data as they are in the source; the test itself finds them changed by
    TestRemoveKeys, which comes before it, and fails. *)
Example prints_index : Listing.print_index go_fmt_num vss_data = listing.
Proof. vm_compute. reflexivity. Qed.
(** TestLeafNodes, which fails for the same reason. *)
Example counts_leaves : length (Vss.leaf_nodes vss_data) = 8%nat ∧
  length (Vss.leaf_nodes (Vss.remove ["a"; "c1"; "c3_1"] vss_data)) = 5%nat.
Proof. vm_compute. done. Qed.
(** TestRemoveKeys. *)
Example removes_keys : Vss.remove ["a"; "c1"; "c3_1"] vss_data = WObj [
  ("b", WStr "B");
  ("c", WObj [("c2", WStr "C2"); ("c3", WObj [("c3_2", WStr "C3_2")]); ("c4", WArr [WStr "C4_1"; WStr "C4_2"]); ("d", WStr "D")])].
Proof. vm_compute. reflexivity. Qed.
