(** Concrete cases and witnesses for [Prop_Log.v]. *)
From Verif Require Import Base BaseSpec BaseSpecLemmas F64 Tson Serial GoText Heap Patch Logument LogSpec BaseLemmas LogLemmas
  ChangeLemmas CompactLemmas HistoryLemmas SliceLemmas.
From Coq Require Import Lia.

Lemma run_reachable st cs : reachable st -> Forall call_ok cs -> reachable (run st cs).
Proof.
  revert st. induction cs as [|c cs IH]; intros st HR HO; [done|].
  inversion HO; subst. cbn [run fold_left]. apply IH; [by apply reach_call|done].
Qed.

(** An order of equal timestamps and of map entries Go may choose. *)
Fixpoint ins_ts (p : operation) (l : list operation) : list operation :=
  match l with
  | [] => [p]
  | q :: l' => if op_ts p <=? op_ts q then p :: q :: l' else q :: ins_ts p l'
  end.
Definition sort_ts (l : list operation) : list operation := foldr ins_ts [] l.
Lemma ins_ts_perm p l : ins_ts p l ≡ₚ p :: l.
Proof.
  induction l as [|q l IH]; [done|]. cbn. destruct (_ <=? _); [done|]. rewrite IH. apply Permutation_swap.
Qed.
Lemma ins_ts_sorted p l : StronglySorted (fun p q => op_ts p <= op_ts q) l ->
  StronglySorted (fun p q => op_ts p <= op_ts q) (ins_ts p l).
Proof.
  induction 1 as [|q l HS IH HF]; cbn; [repeat constructor|].
  destruct (Z.leb_spec (op_ts p) (op_ts q)) as [Hle|Hgt].
  - constructor; [by constructor|]. constructor; [done|].
    rewrite Forall_forall in HF |- *. intros x Hx. specialize (HF x Hx). lia.
  - constructor; [done|]. rewrite (ins_ts_perm p l). constructor; [lia|done].
Qed.
Lemma sort_ts_ok l : sort_ts l ≡ₚ l ∧ StronglySorted (fun p q => op_ts p <= op_ts q) (sort_ts l).
Proof.
  induction l as [|p l [I1 I2]]; [split; [done|constructor]|]. cbn. split.
  - change (ins_ts p (sort_ts l) ≡ₚ p :: l). by rewrite ins_ts_perm, I1.
  - by apply ins_ts_sorted.
Qed.
Definition fwd : oracle := Oracle sort_ts (fun m => m) (fun vs => vs).
Definition bwd : oracle := Oracle sort_ts (fun m => reverse m) (fun vs => reverse vs).
Lemma fwd_ok : oracle_ok fwd.
Proof. split; [apply sort_ts_ok|]. split; done. Qed.
Lemma bwd_ok : oracle_ok bwd.
Proof. split; [apply sort_ts_ok|]. split; intros; apply reverse_Permutation. Qed.

Definition num (z : Z) : any := ANum (f64_of_Z z).
Definition doc0 : tson :=
  TObj [("a", TLeaf (PNum (f64_of_Z 1)) 5); ("b", TObj [("c", TLeaf (PStr "x") 6)])].
Definition heap0 : heap := fst (alloc_tree [] doc0).
Definition root0 : val := snd (alloc_tree [] doc0).
Definition log0 : logument := Lgm [0%N] root0 {[ 0%N := root0 ]} ∅ None.
Lemma log0_new T : new_logument T (SI_doc root0) None heap0 = (heap0, Ok log0).
Proof. reflexivity. Qed.
Lemma log0_reachable : reachable (heap0, log0).
Proof. eapply reach_new. apply (log0_new (go_lib (fun _ => true))). Qed.

(** Two commits: 2, 2 and "y", then 3 and 2. *)
Definition stores1 : list call :=
  [CStore (PI_op (Op OReplace "/a" (num 2) 7));
   CSnapshot 0;
   CStore (PI_patches [Some [Op OReplace "/a" (num 2) 8; Op OReplace "/b/c" (AStr "y") 9]; None])].
Definition stores2 : list call :=
  [CStore (PI_patch (Some [Op OReplace "/a" (num 3) 10; Op OReplace "/b/c" (AStr "y") 11]))].
Definition demo_calls : list call := stores1 ++ [CAppend] ++ stores2 ++ [CAppend].
Definition demo_st : state := run (heap0, log0) demo_calls.
Definition demo_log : logument := snd demo_st.
Lemma demo_reachable : reachable demo_st.
Proof.
  apply run_reachable; [apply log0_reachable|]. repeat constructor.
Qed.
Lemma demo_st_eq : demo_st = (heap0, demo_log).
Proof. vm_compute. reflexivity. Qed.
Lemma demo_versions : l_version demo_log = [0; 1; 2]%N ∧
  l_patches demo_log !! 1%N = Some (stored stores1) ∧ l_patches demo_log !! 2%N = Some (stored stores2).
Proof. split; [|split]; vm_compute; reflexivity. Qed.
Lemma demo_quiet : Forall quiet stores1 ∧ stored stores1 <> [] ∧ l_pool log0 = None.
Proof. split; [repeat constructor|done]. Qed.
Lemma demo_pool : l_pool (snd (run (heap0, log0) stores1)) = Some (stored stores1).
Proof. vm_compute. reflexivity. Qed.

Lemma empty_commit : exists st, reachable st ∧ l_pool (snd st) = Some [] ∧
  l_version (snd (fst (append st))) = [0; 1]%N ∧ l_patches (snd (fst (append st))) !! 1%N = Some [].
Proof.
  exists (run (heap0, log0) [CStore (PI_patch (Some []))]). split.
  - apply run_reachable; [apply log0_reachable|repeat constructor].
  - split; [|split]; vm_compute; reflexivity.
Qed.

Lemma track_drops : exists st, reachable st ∧
  exists v ps ps', l_patches (snd st) !! v = Some ps ∧
    l_patches (snd (fst (track 1 2 st))) !! v = Some ps' ∧ (length ps' < length ps)%nat.
Proof.
  exists demo_st. split; [apply demo_reachable|]. exists 1%N. do 2 eexists.
  split; [vm_compute; reflexivity|]. split; [vm_compute; reflexivity|]. vm_compute. repeat constructor.
Qed.
Lemma compact_drops : exists st, reachable st ∧
  exists v ps ps', l_patches (snd st) !! v = Some ps ∧
    l_patches (snd (fst (compact "/a" st))) !! v = Some ps' ∧ (length ps' < length ps)%nat.
Proof.
  exists demo_st. split; [apply demo_reachable|]. exists 1%N. do 2 eexists.
  split; [vm_compute; reflexivity|]. split; [vm_compute; reflexivity|]. vm_compute. repeat constructor.
Qed.
Lemma history_drops : exists st orc, reachable st ∧ oracle_ok orc ∧
  exists v ps ps', l_patches (snd st) !! v = Some ps ∧
    l_patches (snd (fst (history orc "/a" st))) !! v = Some ps' ∧ (length ps' < length ps)%nat.
Proof.
  exists demo_st, fwd. split; [apply demo_reachable|]. split; [apply fwd_ok|]. exists 1%N. do 2 eexists.
  split; [vm_compute; reflexivity|]. split; [vm_compute; reflexivity|]. vm_compute. repeat constructor.
Qed.
(** Track reports an operation that changes nothing, and a second call reports less. *)
Lemma track_reports_repeats : exists st m st' m', reachable st ∧
  track 1 2 st = (st', Ok m) ∧
  (exists p q, m !! 1%N = Some [p; q; Op OReplace "/b/c" (AStr "y") 9] ∧ op_path p = op_path q
     ∧ go_equal (op_value p) (op_value q)) ∧
  snd (track 1 2 st') = Ok m' ∧ m' !! 1%N <> m !! 1%N.
Proof.
  exists demo_st. do 3 eexists. split; [apply demo_reachable|].
  split; [vm_compute; reflexivity|]. split.
  { do 2 eexists. split; [vm_compute; reflexivity|]. split; [vm_compute; reflexivity|by apply any_eq_true]. }
  split; [vm_compute; reflexivity|]. vm_compute. congruence.
Qed.
Lemma ttrack_demo : exists m, snd (temporal_track 8 11 demo_st) = Ok m ∧
  m !! 1%N = Some [Op OReplace "/a" (num 2) 8; Op OReplace "/b/c" (AStr "y") 9] ∧
  m !! 2%N = Some [Op OReplace "/a" (num 3) 10].
Proof. eexists. split; [vm_compute; reflexivity|]. split; vm_compute; reflexivity. Qed.
Lemma compact_demo : exists L', compact "/a" demo_st = ((heap0, L'), Ok tt) ∧
  l_patches L' !! 1%N = Some [Op OReplace "/a" (num 2) 7; Op OReplace "/b/c" (AStr "y") 9] ∧
  l_patches L' !! 2%N = Some [Op OReplace "/a" (num 3) 10; Op OReplace "/b/c" (AStr "y") 11].
Proof. eexists. split; [vm_compute; reflexivity|]. split; vm_compute; reflexivity. Qed.
Lemma clash_demo : exists st, reachable st ∧ snd (compact "" st) = Panic.
Proof.
  exists (run (heap0, log0) [CStore (PI_patch (Some [Op OReplace "/a" (ASlice []) 7; Op OReplace "/a" (ASlice []) 8])); CAppend]).
  split; [apply run_reachable; [apply log0_reachable|repeat constructor]|]. vm_compute. reflexivity.
Qed.

(** History *)
Lemma history_demo : exists m, snd (history fwd "/a" demo_st) = Ok m ∧
  alookup "/a" m = Some [Op OAdd "/a" (ATson (TLeaf (PNum (f64_of_Z 1)) 5)) 0;
                         Op OReplace "/a" (num 2) 7; Op OReplace "/a" (num 3) 10].
Proof. eexists. split; vm_compute; reflexivity. Qed.
Lemma history_unordered : exists st orc m ps p q, reachable st ∧ oracle_ok orc ∧
  snd (history orc "/a" st) = Ok m ∧ alookup "/a" m = Some (ps ++ [p; q]) ∧ op_ts q < op_ts p.
Proof.
  exists demo_st, bwd. do 4 eexists. split; [apply demo_reachable|]. split; [apply bwd_ok|].
  split; [vm_compute; reflexivity|]. split.
  - instantiate (1 := Op OReplace "/a" (num 2) 7). instantiate (1 := Op OReplace "/a" (num 3) 10).
    instantiate (1 := [Op OAdd "/a" (ATson (TLeaf (PNum (f64_of_Z 1)) 5)) 0]). vm_compute. reflexivity.
  - vm_compute. reflexivity.
Qed.
Lemma filter_path_changes k l seen : last_on k seen = None ->
  filter (fun p => op_path p = k) (changes seen l) = [] -> filter (fun p => op_path p = k) l = [].
Proof.
  revert seen. induction l as [|p l IH]; intros seen HS H; [done|]. cbn [changes] in H.
  rewrite filter_app in H. apply app_eq_nil in H as [H1 H2]. rewrite filter_cons.
  destruct (decide (op_path p = k)) as [E|E].
  - exfalso. rewrite decide_True in H1.
    + rewrite filter_cons, decide_True in H1 by done. done.
    + unfold changed. by rewrite E, HS.
  - apply (IH (seen ++ [p])); [|done]. rewrite last_on_snoc. by rewrite decide_False.
Qed.
Lemma history_missing orc target h L p t0 : reachable (h, L) -> oracle_ok orc ->
  p ∈ all_ops L -> under target p -> read h (default VNil (l_snapshots L !! 0%N)) = Some t0 ->
  (forall v, get_value t0 (op_path p) <> Ok v) ->
  snd (history orc target (h, L)) = Panic.
Proof.
  intros HR HO Hp Hu Ht Hv. apply reachable_consistent in HR. cbn in HR.
  pose proof (history_spec orc target h L HR (proj2 (proj2 HO))) as H. cbn zeta in H.
  destruct (history orc target (h, L)) as [st' [m| |]]; [|done|done].
  destruct H as (_ & t1 & Ht1 & HK). rewrite Ht in Ht1. injection Ht1 as <-. specialize (HK (op_path p)).
  assert (HE : filter (fun q => op_path q = op_path p) (changes [] (filter (under target) (all_ops L))) <> []).
  { intros E. apply filter_path_changes in E; [|done].
    assert (Hin : p ∈ filter (fun q => op_path q = op_path p) (filter (under target) (all_ops L))).
    { apply elem_of_list_filter. split; [done|]. by apply elem_of_list_filter. }
    rewrite E in Hin. by apply elem_of_nil in Hin. }
  destruct (alookup (op_path p) m) as [ps|]; [|done].
  destruct HK as (_ & [v Hv'] & _). by destruct (Hv v).
Qed.
(** The path of a new member is missing from the initial document. *)
Lemma history_missing_demo : exists h L p t0, reachable (h, L) ∧ p ∈ all_ops L ∧ under "/n" p ∧
  read h (default VNil (l_snapshots L !! 0%N)) = Some t0 ∧ forall v, get_value t0 (op_path p) <> Ok v.
Proof.
  set (p := Op OAdd "/new" (num 1) 3).
  exists (fst (run (heap0, log0) [CStore (PI_op p); CAppend])), (snd (run (heap0, log0) [CStore (PI_op p); CAppend])), p, doc0.
  split. { rewrite <- surjective_pairing. apply run_reachable; [apply log0_reachable|repeat constructor]. }
  split; [vm_compute; constructor|]. split; [exists "ew"; by apply decode_spec|]. split; [vm_compute; reflexivity|].
  intros v. vm_compute. congruence.
Qed.

(** Slice *)
Lemma slice_demo : exists st' R, slice 1 2 demo_st = (st', Ok R) ∧ l_version R = [1; 2]%N
  ∧ exists s, l_snapshots R = {[ 1%N := s ]}.
Proof. do 2 eexists. split; [vm_compute; reflexivity|]. split; [reflexivity|]. eexists. reflexivity. Qed.
Lemma slice_query_ok vi vj h L st' R k : reachable (h, L) -> slice vi vj (h, L) = (st', Ok R) ->
  (0 < vj)%N -> (vi <= k <= vj)%N ->
  is_Some (l_snapshots L !! vi) ∨ (forall w, (vi <= w <= vj)%N -> l_snapshots L !! w = None) ->
  exists w s, find_latest R k = (R, Ok (w, s)) ∧ (vi <= w <= k)%N ∧ l_snapshots R !! w = Some s.
Proof.
  intros HR Es H0 Hk HS. apply reachable_consistent in HR. cbn in HR.
  pose proof (slice_spec vi vj h L HR) as H. rewrite Es in H.
  destruct H as (Hle & _ & Hv & _ & _ & _ & Hsn).
  assert (HI : is_Some (l_snapshots R !! vi)).
  { destruct Hsn as [((v & Hr & Hv1) & _ & Hsn)|(Hn & s & _ & Hsn)].
    - rewrite Hsn, decide_True by lia. destruct HS as [?|HS]; [done|].
      rewrite HS in Hv1 by done. by destruct Hv1.
    - rewrite Hsn, lookup_singleton. by eexists. }
  destruct (find_latest_slice R (N.max 1 vi) vj k Hv ltac:(lia) ltac:(lia)) as (w & s & H1 & H2 & H3).
  { exists vi. split; [lia|done]. }
  exists w, s. split; [done|]. split; [|done]. split; [|done].
  destruct Hsn as [(_ & _ & Hsn)|(_ & s' & _ & Hsn)]; rewrite Hsn in H3.
  - by destruct (decide (vi <= w <= vj)%N) as [?|?]; [lia|].
  - apply lookup_singleton_Some in H3. lia.
Qed.
Lemma slice_query_bad vi vj h L st' R k h2 : reachable (h, L) -> slice vi vj (h, L) = (st', Ok R) ->
  vj = 0%N ∨ (exists w, (vi <= w <= vj)%N ∧ is_Some (l_snapshots L !! w))
             ∧ (forall w, (vi <= w <= k)%N -> l_snapshots L !! w = None) ->
  snd (snapshot k (h2, R)) = Panic.
Proof.
  intros HR Es HS. apply reachable_consistent in HR. cbn in HR.
  pose proof (slice_spec vi vj h L HR) as H. rewrite Es in H.
  destruct H as (Hle & _ & Hv & _ & _ & _ & Hsn).
  destruct (find_latest_slice_bad R (N.max 1 vi) vj k Hv) as (e & He & Hf); [|by eapply snapshot_bad].
  destruct HS as [->|[(w & Hw & Hws) HS]]; [left; lia|]. right. intros u Hu.
  destruct Hsn as [(_ & _ & Hsn)|(Hn & _)].
  - rewrite Hsn. case_decide; [|done]. apply HS. lia.
  - rewrite Hn in Hws by done. by destruct Hws.
Qed.
Lemma slice_zero_demo : exists st' R, slice 0 0 demo_st = (st', Ok R) ∧ l_version R = [].
Proof. do 2 eexists. split; vm_compute; reflexivity. Qed.
Lemma slice_late_demo : exists st st' R, reachable st ∧ slice 1 2 st = (st', Ok R) ∧
  l_snapshots (snd st) !! 1%N = None ∧ is_Some (l_snapshots (snd st) !! 2%N) ∧
  snd (snapshot 1 (fst st, R)) = Panic.
Proof.
  exists (run demo_st [CSnapshot 2]). do 2 eexists.
  split; [apply run_reachable; [apply demo_reachable|repeat constructor]|].
  split; [vm_compute; reflexivity|]. split; [vm_compute; reflexivity|].
  split; [vm_compute; by eexists|vm_compute; reflexivity].
Qed.

(** TemporalSlice *)
Lemma tslice_demo : exists st' R, temporal_slice fwd 7 10 demo_st = (st', Ok R) ∧
  l_version R = [1; 1; 1; 2]%N ∧ l_patches R !! 2%N = Some [Op OReplace "/a" (num 3) 10].
Proof. do 2 eexists. split; [vm_compute; reflexivity|]. split; vm_compute; reflexivity. Qed.
Lemma tslice_repeats orc tsi tsj h L st' R v : reachable (h, L) ->
  temporal_slice orc tsi tsj (h, L) = (st', Ok R) ->
  (2 <= length (filter (in_range tsi tsj) (patch_at L v)))%nat ->
  forall c h2, match c with
    | CSnapshot k => snd (snapshot k (h2, R)) = Panic
    | CSlice a b => snd (slice a b (h2, R)) = Panic
    | CTemporalSlice o a b => snd (temporal_slice o a b (h2, R)) = Panic
    | CTrack a b => snd (track a b (h2, R)) = Panic
    | CCompact t => snd (compact t (h2, R)) = Panic
    | CHistory o t => snd (history o t (h2, R)) = Panic
    | _ => True
    end.
Proof.
  intros HR Es Hlen. apply reachable_consistent in HR. cbn in HR.
  pose proof (temporal_slice_spec orc tsi tsj h L HR) as H. rewrite Es in H.
  destruct H as (_ & _ & _ & Hv & _).
  assert (HN : ~ NoDup (l_version R)).
  { rewrite Hv. intros HN.
    assert (Hin : v ∈ sorted_keys (l_patches L)).
    { pose proof HR as (n & Hn & Hp & _). destruct (tslice_versions_all L tsi tsj n Hn Hp v) as [?|E]; [done|].
      rewrite E in Hlen. cbn in Hlen. lia. }
    apply elem_of_list_split in Hin as (a & b & E). rewrite E, map_app, concat_app in HN.
    apply NoDup_app in HN as (_ & _ & HN). cbn [map concat] in HN. apply NoDup_app in HN as (HN & _).
    destruct (length _) as [|[|m]]; [lia|lia|]. cbn in HN. apply NoDup_cons in HN as [HN _].
    apply HN. apply elem_of_list_here. }
  destruct (repeated_not_continuous R HN) as (R' & HC).
  intros c h2. destruct c; try done.
  - unfold snapshot, find_latest. rewrite HC. done.
  - unfold slice. rewrite HC. done.
  - unfold temporal_slice. rewrite HC. done.
  - unfold track. rewrite HC. done.
  - unfold compact. rewrite HC. done.
  - unfold history. rewrite HC. done.
Qed.
Lemma changes_among_in (P : operation -> Prop) {HPd : forall p, Decision (P p)} pre p post seen :
  (P p -> changed (seen ++ filter P pre) p) -> p ∈ changes_among P seen (pre ++ p :: post).
Proof.
  revert seen. induction pre as [|q pre IH]; intros seen HC; cbn [app changes_among].
  - change (filter P []) with (@nil operation) in HC. rewrite app_nil_r in HC.
    case_decide as HP; [|apply elem_of_list_here]. rewrite decide_True by auto. apply elem_of_list_here.
  - rewrite filter_cons in HC. case_decide as HP.
    + apply elem_of_app. right. apply IH. intros H. rewrite <- app_assoc. cbn. by apply HC.
    + apply elem_of_list_further. by apply IH.
Qed.
Lemma compact_keeps_changes target h L h' L' v pre p post : reachable (h, L) ->
  compact target (h, L) = ((h', L'), Ok tt) ->
  l_patches L !! v = Some (pre ++ p :: post) ->
  (under target p -> changed (filter (under target) (ops_between L 0 v ++ pre)) p) ->
  p ∈ patch_at L' v.
Proof.
  intros HR E Hv HC. apply reachable_consistent in HR. cbn in HR.
  pose proof (compact_spec target h L HR) as H. rewrite E in H. destruct H as (_ & HP & _).
  unfold patch_at. rewrite HP, Hv. cbn. apply changes_among_in. by rewrite <- filter_app.
Qed.
