(** Reading the files of a run, and the program run on them. *)
From Verif Require Import Base BaseSpec BaseLemmas BaseSpecLemmas F64 Tson TsonInd TsonSpec Bytes BytesLemmas ConvLemmas Serial TextSpec MarshalText Heap Patch Tjson TjsonSpec Initial Sensor Scenario Sim SimSpec SimTrace SimLemmas SimDocs
  Json JsonSpec JsonLemmas JsonChars JsonParse JsonRead JsonWrite JsonTson RangeSpec Temporal TemporalSpec TempDir TempRun TempUrban Report Store StoreSpec StoreText StoreFiles.

Section read.
Context (T : textlib).
(** ** Patches *)
Definition as_op (u : tpatch) : operation := Op (op_of_name (tp_op u)) (tp_path u) (any_of_json (tp_value u)) (tp_ts u).
Lemma op_of_name_inj s s' : op_of_name s = op_of_name s' -> s = s'.
Proof.
  intros E. assert (H1 : kind_name (op_of_name s) s) by (by apply kind_name_spec). assert (H2 : kind_name (op_of_name s) s') by (by apply kind_name_spec).
  destruct H1 as [H1|[H1 N1]], H2 as [H2|[H2 N2]].
  - unfold standard in *. rewrite !elem_of_cons, elem_of_nil in H1, H2. intuition congruence.
  - exfalso. rewrite H2 in H1. unfold standard in H1. rewrite !elem_of_cons, elem_of_nil in H1. intuition congruence.
  - exfalso. rewrite H1 in H2. unfold standard in H2. rewrite !elem_of_cons, elem_of_nil in H2. intuition congruence.
  - congruence.
Qed.
Lemma any_of_json_inj j j' : any_of_json j = any_of_json j' -> j = j'.
Proof. destruct j, j'; cbn; congruence. Qed.
Lemma as_op_inj u u' : as_op u = as_op u' -> u = u'.
Proof. destruct u, u'. cbn. intros [= H1%op_of_name_inj H2 H3%any_of_json_inj H4]. congruence. Qed.
Definition rmap {A B} (f : A -> B) (r : res A) : res B := match r with Ok a => Ok (f a) | Err => Err | Panic => Panic end.
Lemma set_tfield_op u k t : set_field T (as_op u) k t = rmap as_op (set_tfield T u k t).
Proof.
  unfold set_field, set_tfield. repeat case_decide; try (destruct t; done).
  - by destruct (to_any T t).
  - destruct t; try done. by destruct (parse_int _).
Qed.
Lemma set_tfields_op u m : set_fields T (as_op u) m = rmap as_op (set_tfields T u m).
Proof.
  revert u. induction m as [|[k t] m IH]; intros u; [done|]. cbn [set_fields set_tfields]. rewrite set_tfield_op.
  destruct (set_tfield T u k t); cbn [rmap rbind]; [apply IH|done|done].
Qed.
Lemma set_tfields_spec m r : set_tfields T zero_tpatch m = Ok r <->
  field "op" (eq JtNull) is_text "" m (tp_op r) ∧ field "path" (eq JtNull) is_text "" m (tp_path r) ∧
    field "value" (fun _ => False) (json_of T) JNull m (tp_value r) ∧ field "timestamp" (eq JtNull) is_stamp 0 m (tp_ts r).
Proof.
  assert (E : set_tfields T zero_tpatch m = Ok r <-> set_fields T (as_op zero_tpatch) m = Ok (as_op r)).
  { rewrite set_tfields_op. destruct (set_tfields T zero_tpatch m) as [r'| |]; cbn [rmap]; [|done|done].
    split; [by intros [= ->]|]. intros H. assert (H2 : as_op r' = as_op r) by congruence. by rewrite (as_op_inj _ _ H2). }
  rewrite E. rewrite (set_fields_spec T m (as_op zero_tpatch) "" JNull (as_op r)) by done. split.
  - intros (s' & j' & H1 & H2 & H3 & H4 & H5 & H6). apply op_of_name_inj in H1. apply any_of_json_inj in H2. by subst.
  - intros (H3 & H4 & H5 & H6). by exists (tp_op r), (tp_value r).
Qed.
Lemma to_tpatch_spec t r : to_tpatch T t = Ok r <-> patch_of T t r.
Proof.
  unfold patch_of, members_of. split.
  - intros H. assert (Hm : exists m, (t = JtNull ∧ m = [] ∨ t = JtObj m) ∧ set_tfields T zero_tpatch m = Ok r).
    { destruct t as [| | | | |m]; try done; [exists []; auto|exists m; auto]. }
    destruct Hm as (m & Hm & Hs). apply set_tfields_spec in Hs. by exists m.
  - intros (m & Hm & Hs). apply set_tfields_spec in Hs. destruct Hm as [[-> ->]| ->]; done.
Qed.
Lemma to_tpatches_spec l us : to_tpatches T l = Ok us <-> Forall2 (patch_of T) l us.
Proof.
  revert us. induction l as [|t l IH]; intros us; cbn [to_tpatches].
  - split; [intros [= <-]; constructor|by inversion 1].
  - split.
    + destruct (to_tpatch T t) as [u| |] eqn:E; try done. cbn [rbind]. destruct (to_tpatches T l) as [us'| |]; try done. intros [= <-].
      constructor; [by apply to_tpatch_spec|by apply IH].
    + inversion 1 as [|? u ? us' H1 H2]; subst. apply to_tpatch_spec in H1. apply IH in H2. by rewrite H1, H2.
Qed.
Lemma set_tfields_no_panic m u : set_tfields T u m <> Panic.
Proof. intros E. pose proof (set_tfields_op u m) as H. rewrite E in H. by apply set_fields_no_panic in H. Qed.
Lemma to_tpatches_no_panic l : to_tpatches T l <> Panic.
Proof.
  induction l as [|t l IH]; [done|]. cbn [to_tpatches]. destruct (to_tpatch T t) eqn:E; cbn [rbind].
  - by destruct (to_tpatches T l).
  - done.
  - destruct t; try done. by apply set_tfields_no_panic in E.
Qed.
Lemma read_patches_spec s us : read_patches T s = Ok us <-> patches_text T s us.
Proof.
  unfold read_patches, patches_text. destruct (scan s) as [t|] eqn:E.
  - apply scan_text in E. assert (D : forall t', json_text s t' -> t' = t) by (intros t' H; by apply (json_text_det _ _ _ H E)).
    destruct t as [| | | |l|]; try (split; [done|]; intros [[H _]|(l' & H & _)]; apply D in H; done).
    + split; [intros [= <-]; by left|]. intros [[_ ->]|(l' & H & _)]; [done|]. by apply D in H.
    + rewrite to_tpatches_spec. split; [intros H; right; by exists l|]. intros [[H _]|(l' & H & HF)]; apply D in H; [done|]. by injection H as ->.
  - split; [done|]. intros [[H _]|(l' & H & _)]; apply scan_text in H; congruence.
Qed.
Lemma read_patches_no_panic s : read_patches T s <> Panic.
Proof. unfold read_patches. destruct (scan s) as [[| | | |l|]|]; try done. apply to_tpatches_no_panic. Qed.

(** ** Documents *)
Lemma read_map_obj s m : json_text s (JtObj m) -> read_map T s = to_any T (JtObj m).
Proof. intros E%scan_text. unfold read_map. by rewrite E. Qed.
End read.

Section saved.
Context (T : textlib) (num : f64 -> string).
Lemma ind_white : white "  ".
Proof. repeat (constructor; [simpl; tauto|]). constructor. Qed.
Lemma save_good name w fs : survives T num w -> save_json num name w fs = ainsert name (indented num "  " 0 w) fs.
Proof. intros H. unfold save_json, marshal_indent. by rewrite (survives_marshals T num w H). Qed.
Lemma save_bad name w fs : no_number w -> save_json num name w fs = fs.
Proof. intros H%marshals_spec. unfold save_json, marshal_indent. by rewrite H. Qed.
Lemma save_other name name' w fs : name' <> name -> alookup name' (save_json num name w fs) = alookup name' fs.
Proof. intros H. unfold save_json. destruct (marshal_indent num "  " w); [|done]. by apply alookup_ainsert_ne. Qed.
Lemma good_text w : survives T num w -> json_text (indented num "  " 0 w) (wtree num w) ∧ json_of T (wtree num w) (unmarshal_any w).
Proof.
  intros H. split; [|by apply wtree_json, survives_read]. apply text_value, (indented_value T); [apply ind_white|by apply survives_kept].
Qed.
Lemma good_file name w fs : survives T num w -> alookup name fs = Some (indented num "  " 0 (write_any w)) -> file_holds T fs name w.
Proof.
  intros H E. destruct (good_text _ (survives_sorted _ _ _ H)) as [H1 H2]. exists (indented num "  " 0 (write_any w)), (wtree num (write_any w)), (unmarshal_any (write_any w)).
  split; [done|]. split; [done|]. split; [done|]. apply decoded_written.
Qed.
Lemma prim_read p : unmarshal_any (write_prim p) = json_of_prim p.
Proof. by destruct p. Qed.
Lemma patch_read q : utf8 (sp_path q) -> prim_kept T num (sp_value q) -> int64 (sp_ts q) -> patch_of T (wtree num (spatch_written q)) (loaded q).
Proof.
  intros H1 H2 H3. apply to_tpatch_spec.
  assert (E : to_any T (wtree num (write_prim (sp_value q))) = Ok (json_of_prim (sp_value q))).
  { apply to_any_spec. rewrite <- prim_read. by apply wtree_json, (survives_read T num), good_prim. }
  assert (E2 : parse_int (z_text (sp_ts q)) = Some (sp_ts q)) by (by apply parse_int_spec, z_text_int).
  unfold spatch_written. cbn [wtree map fst snd to_tpatch set_tfields]. unfold set_tfield.
  change (fold_name "op") with "op". change (fold_name "path") with "path". change (fold_name "value") with "value". change (fold_name "timestamp") with "timestamp".
  rewrite decide_True by done. cbn [rbind]. rewrite decide_False, decide_True by done. cbn [rbind].
  rewrite !(decide_False (P := "value" = _)), decide_True by done. rewrite E. cbn [rbind].
  rewrite !(decide_False (P := "timestamp" = _)), decide_True by done. by rewrite E2.
Qed.
Lemma patches_read l : (forall q, q ∈ l -> utf8 (sp_path q) ∧ prim_kept T num (sp_value q) ∧ int_kept T (sp_ts q) ∧ int64 (sp_ts q)) ->
  patches_text T (indented num "  " 0 (WArr (map spatch_written l))) (map loaded l).
Proof.
  intros H. right. exists (map (wtree num) (map spatch_written l)). destruct (good_text _ (good_spatches T num l H)) as [H1 _]. split; [exact H1|].
  clear H1. induction l as [|q l IH]; cbn [map]; [constructor|]. apply List.Forall2_cons.
  - destruct (H q) as (H1 & H2 & _ & H3); [by left|]. by apply patch_read.
  - apply IH. intros q' Hq. apply H. by right.
Qed.
Lemma jpatches_data l : unmarshal_any (WArr (map jpatch_written l)) = JArr (map patch_data l).
Proof.
  cbn [unmarshal_any]. f_equal. rewrite map_map. apply map_ext. intros q. unfold jpatch_written, patch_data. cbn [unmarshal_any map fst snd].
  destruct (jp_value q) as [p|z]; cbn [value_written]; [|done]. by rewrite prim_read.
Qed.

(** ** The files of a run *)
Definition file_names : list string :=
  ["initial_json.json"; "initial_tson.json"; "final_json.json"; "final_tson.json"; "all_json_patches.json"; "all_tson_patches.json"].
Lemma saved_others m0 m fs name : name ∉ file_names -> alookup name (saved_files num m0 m fs) = alookup name fs.
Proof.
  unfold file_names, saved_files. rewrite !not_elem_of_cons. intros (H1 & H2 & H3 & H4 & H5 & H6 & _). by rewrite !save_other.
Qed.
Lemma tpatches_sub us q : q ∈ map set_of (changed_only us) -> q ∈ map set_of us.
Proof.
  intros (u & -> & Hu)%elem_of_list_fmap. apply elem_of_list_In, List.filter_In in Hu as [Hu _]. apply elem_of_list_fmap. exists u. split; [done|by apply elem_of_list_In].
Qed.
Lemma saved_ok w v sc sec inc m0 m fs : simulate w v sc sec inc = Ok m -> start w v sc = Ok m0 -> orders_ok w -> run_survives T num v m ->
  let fs' := saved_files num m0 m fs in
  file_holds T fs' "initial_json.json" (WObj (m_json m0)) ∧ file_holds T fs' "initial_tson.json" (WObj (m_tson m0)) ∧
  file_holds T fs' "final_json.json" (WObj (m_json m)) ∧ file_holds T fs' "final_tson.json" (WObj (m_tson m)) ∧
  file_says T fs' "all_json_patches.json" (JArr (map patch_data (m_jpatches m))) ∧
  exists s, alookup "all_tson_patches.json" fs' = Some s ∧ patches_text T s (map loaded (m_tpatches m)).
Proof.
  intros H H0 Ho Hs fs'. destruct (good_start T num w v sc m0 m H0 Ho Hs) as [G1 G2].
  destruct (good_final T num w v sc sec inc m0 m H H0 Ho Hs) as (G3 & G4 & us & Ej & Es & Et).
  apply good_obj in G1, G2, G3, G4. destruct Hs as [_ Hu].
  assert (Hp : forall q, q ∈ m_tpatches m -> utf8 (sp_path q) ∧ prim_kept T num (sp_value q) ∧ int_kept T (sp_ts q) ∧ int64 (sp_ts q)).
  { intros q Hq. apply Hu. rewrite Es. rewrite Et in Hq. by apply tpatches_sub. }
  assert (G5 : survives T num (WArr (map jpatch_written (m_jpatches m)))).
  { rewrite Ej. apply good_jpatches. intros u Hin. destruct (Hu (set_of u)) as (A & B & C & _); [|done]. rewrite Es. apply elem_of_list_fmap. by exists u. }
  pose proof (good_spatches T num _ Hp) as G6.
  split; [|split; [|split; [|split; [|split]]]].
  - apply good_file; [done|]. unfold fs', saved_files. rewrite !save_other by done. rewrite save_good by (by apply survives_sorted). apply alookup_ainsert_eq.
  - apply good_file; [done|]. unfold fs', saved_files. rewrite !save_other by done. rewrite save_good by (by apply survives_sorted). apply alookup_ainsert_eq.
  - apply good_file; [done|]. unfold fs', saved_files. rewrite !save_other by done. rewrite save_good by (by apply survives_sorted). apply alookup_ainsert_eq.
  - apply good_file; [done|]. unfold fs', saved_files. rewrite !save_other by done. rewrite save_good by (by apply survives_sorted). apply alookup_ainsert_eq.
  - destruct (good_text _ G5) as [H1 H2]. eexists _, _. split; [|split; [exact H1|]]; [|by rewrite <- jpatches_data].
    unfold fs', saved_files. rewrite save_other by done. rewrite save_good by done. apply alookup_ainsert_eq.
  - eexists. split; [|by apply patches_read]. unfold fs', saved_files. rewrite save_good by done. apply alookup_ainsert_eq.
Qed.
Lemma saved_lost m0 m fs q : q ∈ m_tpatches m -> finite (sp_value q) = false ->
  alookup "all_tson_patches.json" (saved_files num m0 m fs) = alookup "all_tson_patches.json" fs.
Proof.
  intros Hq Hf. unfold saved_files. rewrite save_bad; [by rewrite !save_other|].
  apply (nn_elem _ (spatch_written q)); [apply elem_of_list_fmap; by exists q|]. unfold spatch_written.
  apply (nn_member _ "value" (write_prim (sp_value q))); [do 2 right; by left|]. destruct (sp_value q) as [|f|]; try done. cbn. constructor.
  destruct f; try done; [right; by eexists|by left].
Qed.
End saved.

(** ** The program *)
Lemma newest_dir entries c : clock_ok c -> newest entries c -> latest_dir entries = Ok (run_dir c).
Proof.
  intros Hc [Hin Hmax]. pose proof (run_dir_run c Hc) as Hr. destruct (latest_dir entries) as [s| |] eqn:E.
  - apply latest_spec in E as (Hs & n & Hn & Hm). pose proof (Hm _ _ Hin Hr). pose proof (Hmax _ _ Hs Hn).
    assert (n = clock_number c) by lia. subst n. destruct Hn as [_ ->], Hr as [_ ->]. done.
  - exfalso. by apply (proj1 (latest_none entries) E _ _ Hin Hr).
  - by apply latest_total in E.
Qed.
Lemma no_run b order entries content h : (forall s n, (s, true) ∈ entries -> ~ is_run s n) -> temporal_program b order entries content h = Ok None.
Proof. intros H. unfold temporal_program. by rewrite (proj2 (latest_none entries) H). Qed.
Lemma read_map_spec T s j : read_map T s = Ok j <-> map_text T s j.
Proof.
  unfold read_map, map_text. destruct (scan s) as [t|] eqn:E.
  - apply scan_text in E. assert (HD : forall t', json_text s t' -> t' = t) by (intros t' Ht'; apply (json_text_det _ _ _ Ht' E)). split.
    + destruct t; try done; [intros [= <-]; by left|]. intros H%to_any_spec. right. eauto.
    + intros [[H ->]|(m & H & Hj)]; apply HD in H; subst t; [done|]. by apply to_any_spec.
  - split; [done|]. intros [[H _]|(m & H & _)]; apply scan_text in H; congruence.
Qed.
Lemma load_patches_spec T fs us : load_patches T fs = Ok us <-> stored_patches T fs us.
Proof.
  unfold load_patches, stored_patches. destruct (alookup _ fs) as [s|].
  - rewrite read_patches_spec. split; [eauto|]. intros [[? _]|(s' & [= <-] & H)]; done.
  - split; [intros [= <-]; by left|]. intros [[_ ->]|(s' & ? & _)]; done.
Qed.
Lemma program_any b order entries content h c : clock_ok c -> newest entries c -> let fs := content (run_dir c) in let T := lb_text b in
  ((forall us, ~ stored_patches T fs us) -> temporal_program b order entries content h = Ok None) ∧
  forall us, stored_patches T fs us ->
    ((forall j, ~ stored_document T fs j) -> temporal_program b order entries content h = Panic) ∧
    forall j, stored_document T fs j ->
      temporal_program b order entries content h = (do a <- temporal_experiment b (order 0%nat j) (order 1%nat j) us h; Ok (Some a)).
Proof.
  intros Hc Hn fs T. unfold temporal_program. rewrite (newest_dir _ _ Hc Hn). fold fs T. split; [|intros us Hus%load_patches_spec; rewrite Hus; split].
  - intros H. destruct (load_patches T fs) as [us| |] eqn:E; [|done|done]. apply load_patches_spec in E. by apply H in E.
  - intros H. destruct (alookup _ fs) as [s|] eqn:E; [|done]. destruct (read_map T s) as [j| |] eqn:Ej; [|done|done]. apply read_map_spec in Ej. exfalso. apply (H j). by exists s.
  - intros j (s & -> & Hj%read_map_spec). by rewrite Hj.
Qed.
Lemma program_panics b order entries content h c us : clock_ok c -> newest entries c -> load_patches (lb_text b) (content (run_dir c)) = Ok us ->
  (forall file file', temporal_experiment b file file' us h = Panic) -> temporal_program b order entries content h = Panic.
Proof.
  intros Hc Hn E He. unfold temporal_program. rewrite (newest_dir _ _ Hc Hn), E. destruct (alookup _ _) as [s|]; [|done].
  destruct (read_map _ s); [|done|done]. by rewrite He.
Qed.
Lemma program_lost b num order entries content h c m0 m q : clock_ok c -> newest entries c -> content (run_dir c) = saved_files num m0 m [] ->
  q ∈ m_tpatches m -> finite (sp_value q) = false -> temporal_program b order entries content h = Panic.
Proof.
  intros Hc Hn Ec Hq Hf. apply (program_panics b order entries content h c []); [done|done| |intros file file'; apply experiment_still].
  unfold load_patches. rewrite Ec, (saved_lost num m0 m [] q Hq Hf). done.
Qed.
Lemma survives_finite T num v m w sec inc : simulate w v None sec inc = Ok m -> run_survives T num v m -> writable v m.
Proof.
  intros H [Hs Hu]. assert (F : forall p, prim_kept T num p -> finite p = true) by (intros [|f|]; cbn; try done; apply num_kept_finite).
  split.
  - intros p s Hin. apply F. by apply (Hs p s).
  - intros q Hq. apply F. apply (Hu q). by apply (patches_updates w v sec inc m q H).
Qed.
Lemma program_runs b num order entries content h c w v sec inc m0 m fs : simulate w v None sec inc = Ok m -> start w v None = Ok m0 -> orders_ok w ->
  run_survives (lb_text b) num v m -> reorders order -> clock_ok c -> newest entries c -> content (run_dir c) = saved_files num m0 m fs ->
  exists file file', decoded (WObj (m_json m0)) file ∧ decoded (WObj (m_json m0)) file' ∧
    temporal_program b order entries content h = (do a <- temporal_experiment b file file' (map loaded (m_tpatches m)) h; Ok (Some a)).
Proof.
  intros H H0 Ho Hs Hr Hc Hn Ec. destruct (saved_ok (lb_text b) num w v None sec inc m0 m fs H H0 Ho Hs) as ((s & t & j & Es & Ht & Hj & Hd) & _ & _ & _ & _ & s2 & Es2 & Hp).
  exists (order 0%nat j), (order 1%nat j). split; [by apply (decoded_reordered j)|]. split; [by apply (decoded_reordered j)|].
  unfold temporal_program, load_patches. rewrite (newest_dir _ _ Hc Hn), Ec, Es2, Es. rewrite (proj2 (read_patches_spec _ _ _) Hp).
  assert (E : read_map (lb_text b) s = Ok j).
  { inversion Hd as [? N1 N2| |? m1 m2]; subst; [by destruct (N2 (m_json m0))|]. inversion Hj; subst. rewrite (read_map_obj _ _ _ Ht). by apply to_any_spec. }
  by rewrite E.
Qed.
Lemma program_correct b num order entries content h c w v sec inc m0 m fs lo hi : simulate w v None sec inc = Ok m -> start w v None = Ok m0 -> orders_ok w ->
  separate v -> 0 < inc -> plain_paths v -> run_survives (lb_text b) num v m -> lab_ok b -> (forall p, p ∈ watched -> p ∈ akeys (sensors v)) -> spans m lo hi ->
  10000 <= hi - lo -> 60 * (hi - lo) < 2 ^ 52 ->
  reorders order -> clock_ok c -> newest entries c -> content (run_dir c) = saved_files num m0 m fs ->
  exists a, temporal_program b order entries content h = Ok (Some a) ∧ correct v m (lb_now b) lo hi a.
Proof.
  intros H H0 Ho Hsep Hi Hpl Hs Hb Hw Hsp Hl Hr1 Hr Hc Hn Ec.
  destruct (program_runs b num order entries content h c w v sec inc m0 m fs H H0 Ho Hs Hr Hc Hn Ec) as (file & file' & D1 & D2 & E).
  destruct (experiment_correct w v sec inc m m0 file file' b h lo hi H H0 Ho Hsep Hi Hpl (survives_finite _ _ _ _ _ _ _ H Hs) D1 D2 Hb Hw Hsp Hl Hr1) as (a & Ea & Ha).
  exists a. split; [|done]. by rewrite E, Ea.
Qed.
Lemma program_short b num order entries content h c w v sec inc m0 m fs lo hi : simulate w v None sec inc = Ok m -> start w v None = Ok m0 -> orders_ok w ->
  run_survives (lb_text b) num v m -> spans m lo hi -> hi - lo < 10000 -> reorders order -> clock_ok c -> newest entries c -> content (run_dir c) = saved_files num m0 m fs ->
  temporal_program b order entries content h = Panic.
Proof.
  intros H H0 Ho Hs Hsp Hl Hr Hc Hn Ec.
  destruct (program_runs b num order entries content h c w v sec inc m0 m fs H H0 Ho Hs Hr Hc Hn Ec) as (file & file' & D1 & D2 & E).
  rewrite E, (experiment_short m file file' b h lo hi Hsp Hl). done.
Qed.

(** ** Texts and names *)
Lemma indented_read T num ind w : white ind -> survives T num w ->
  exists t, json_text (indented num ind 0 w) t ∧ json_text (wtext num w) t ∧ json_of T t (unmarshal_any w) ∧ forall t', json_text (indented num ind 0 w) t' -> t' = t.
Proof.
  intros Hi H. assert (H1 : json_text (indented num ind 0 w) (wtree num w)) by (apply JsonTson.text_value, (indented_value T num ind Hi), (survives_kept T num w H)).
  exists (wtree num w). split; [done|]. split; [by apply (indented_same T num ind Hi)|].
  split; [by apply JsonWrite.wtree_json, survives_read|].
  intros t' E%JsonParse.scan_text. apply JsonParse.scan_text in H1. congruence.
Qed.
Lemma run_dir_inj c c' : clock_ok c -> clock_ok c' -> run_dir c = run_dir c' -> c = c'.
Proof.
  intros Hc Hc' E. pose proof (run_number _ _ (run_dir_run c Hc)) as H. rewrite E, (run_number _ _ (run_dir_run c' Hc')) in H.
  unfold clock_number, clock_ok in *. destruct c, c'. cbn in *.
  assert (ck_second0 = ck_second) by lia. assert (ck_minute0 = ck_minute) by lia. assert (ck_hour0 = ck_hour) by lia.
  assert (ck_day0 = ck_day) by lia. assert (ck_month0 = ck_month) by lia. assert (ck_year0 = ck_year) by lia. by subst.
Qed.
