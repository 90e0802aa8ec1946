(** The program on a disk. *)
From Verif Require Import Base BaseSpec BaseLemmas F64 Tson Heap Vss VssSpec Sensor Scenario Sim SimSpec SimTrace SimLemmas SimInit SimExp SimStart Temporal TemporalSpec TempDir RangeSpec Tjson Json JsonSpec Report
  Store StoreSpec StoreFiles StoreRead StoreUrban Disk DiskSpec.

Lemma entries_in (d : dir) name e : (name, e) ∈ d -> (name, match e with EDir _ => true | EFile => false end) ∈ entries_of d.
Proof. intros H. apply elem_of_list_fmap. by exists (name, e). Qed.
Lemma entries_lookup (d : dir) name e : alookup name d = Some e -> (name, match e with EDir _ => true | EFile => false end) ∈ entries_of d.
Proof. intros H. apply entries_in. by apply alookup_Some_in. Qed.
Lemma dir_of_insert sc sc' d dk : dir_of (ainsert sc d dk) sc' = if decide (sc = sc') then d else dir_of dk sc'.
Proof. unfold dir_of. destruct (decide (sc = sc')) as [->|H]; [by rewrite alookup_ainsert_eq|by rewrite alookup_ainsert_ne]. Qed.


(** Entries with other names than those of [S] are left alone. *)
Definition leaves (S : list string) (d d' : dir) : Prop := forall name, name ∉ S -> alookup name d' = alookup name d ∧ forall e, (name, e) ∈ d' <-> (name, e) ∈ d.
Lemma leaves_refl S d : leaves S d d.
Proof. by intros name _. Qed.
Lemma leaves_trans S d d' d'' : leaves S d d' -> leaves S d' d'' -> leaves S d d''.
Proof. intros H1 H2 name Hn. destruct (H1 name Hn) as [E1 I1], (H2 name Hn) as [E2 I2]. split; [congruence|]. intros e. by rewrite I2, I1. Qed.
Lemma ainsert_other (k : string) (v : entry) (d : dir) name e : name <> k -> (name, e) ∈ ainsert k v d <-> (name, e) ∈ d.
Proof.
  intros H. induction d as [|[k' v'] d IH]; cbn [ainsert].
  - rewrite elem_of_list_singleton. split; [by intros [= -> _]|by intros ?%elem_of_nil].
  - destruct (decide (k = k')) as [<-|Hk].
    + rewrite !elem_of_cons. split; intros [[= E _]|Hd]; auto; congruence.
    + rewrite !elem_of_cons. by rewrite IH.
Qed.
Lemma leaves_insert S k v d : k ∈ S -> leaves S d (ainsert k v d).
Proof. intros Hk name Hn. assert (name <> k) by congruence. split; [by rewrite alookup_ainsert_ne|]. intros e. by apply ainsert_other. Qed.
Lemma leaves_file S name d d' : name ∈ S -> make_file name d = Some d' -> leaves S d d'.
Proof. intros H. unfold make_file. destruct (alookup name d) as [[|]|]; intros [= <-]; by apply leaves_insert. Qed.
Lemma leaves_make S name d : name ∈ S -> leaves S d (make_dir name d).
Proof. intros H. unfold make_dir. destruct (alookup name d); [apply leaves_refl|by apply leaves_insert]. Qed.
Lemma leaves_change S name f d : name ∈ S -> leaves S d (change_dir name f d).
Proof. intros H. unfold change_dir. destruct (alookup name d) as [[|]|]; [apply leaves_refl|by apply leaves_insert|apply leaves_refl]. Qed.
Lemma leaves_tables S names d : names ⊆ S -> leaves S d (make_tables names d).1.
Proof.
  revert d. induction names as [|x names IH]; intros d H; [apply leaves_refl|]. cbn [make_tables]. destruct (make_file x d) as [d'|] eqn:E; [|apply leaves_refl].
  eapply leaves_trans; [eapply leaves_file; [|exact E]; apply H; left|]. apply IH. intros y Hy. apply H. by right.
Qed.
Definition touched (c : clock) : list string := run_dir c :: "sensor_data" :: tables.
Lemma run_in_leaves num sc jb d d' : run_in num sc jb d = Ok d' -> leaves (touched (jb_clock jb)) d d'.
Proof.
  unfold run_in. destruct (init_vehicle _ _ _ _) as [v| |]; try done. cbn [rbind]. destruct (start _ _ _) as [m0| |]; try done. cbn [rbind].
  destruct (experiment _ _ _ _ _) as [m| |]; try done. cbn [rbind]. intros [= <-]. unfold touched.
  eapply leaves_trans; [apply (leaves_make _ (run_dir (jb_clock jb))); left|]. eapply leaves_trans; [apply (leaves_make _ "sensor_data"); right; left|].
  apply leaves_change. left.
Qed.
Lemma scenario_leaves num sc jb d d' : scenario_in num sc jb d = Ok d' -> leaves (touched (jb_clock jb)) d d'.
Proof.
  unfold scenario_in. pose proof (leaves_tables (touched (jb_clock jb)) tables d) as H. destruct (make_tables tables d) as [d1 []]; cbn [fst] in H.
  - intros E%run_in_leaves. eapply leaves_trans; [apply H|exact E]. intros x Hx. by do 2 right.
  - intros [= <-]. apply H. intros x Hx. by do 2 right.
Qed.
(** Each scenario is run once, on its own directory. *)
Lemma realworld_each num jobs scs dk dk' : NoDup scs -> realworld num jobs scs dk = Ok dk' ->
  (forall sc, sc ∈ scs -> scenario_in num sc (jobs sc) (dir_of dk sc) = Ok (dir_of dk' sc)) ∧ forall sc, sc ∉ scs -> dir_of dk' sc = dir_of dk sc.
Proof.
  revert dk. induction scs as [|sc scs IH]; intros dk Hnd.
  - intros [= <-]. split; [by intros sc ?%elem_of_nil|done].
  - apply NoDup_cons in Hnd as [Hn Hnd]. cbn [realworld]. destruct (scenario_in num sc (jobs sc) (dir_of dk sc)) as [d| |] eqn:E; try done. cbn [rbind].
    intros [H1 H2]%IH; [|done]. split.
    + intros x [->|Hx]%elem_of_cons.
      * rewrite (H2 _ Hn), dir_of_insert, decide_True by done. exact E.
      * rewrite <- (H1 x Hx), dir_of_insert, decide_False; [done|]. by intros ->.
    + intros x [Hx Hx']%not_elem_of_cons. by rewrite (H2 x Hx'), dir_of_insert, decide_False.
Qed.
Lemma realworld_total num jobs scs dk : (forall sc d, sc ∈ scs -> exists d', scenario_in num sc (jobs sc) d = Ok d') -> exists dk', realworld num jobs scs dk = Ok dk'.
Proof.
  revert dk. induction scs as [|sc scs IH]; intros dk H; [by eexists|]. cbn [realworld]. destruct (H sc (dir_of dk sc)) as [d ->]; [left|]. cbn [rbind].
  apply IH. intros x d' Hx. apply H. by right.
Qed.
Lemma scenario_names : NoDup scenario_list.
Proof. apply (bool_decide_unpack _). vm_compute. exact I. Qed.
Lemma scenario_known sc : sc ∈ scenario_list -> sc ∈ program_scenarios ∧ sc <> "mixed_scenario".
Proof. intros H. unfold scenario_list in H. each_in H. all: split; [|done]. all: apply (bool_decide_unpack _); vm_compute; exact I. Qed.
Lemma run_exists sc jb : sc ∈ scenario_list -> job_ok jb -> exists v m0 m, run_of sc jb v m0 m.
Proof.
  intros Hsc J. destruct (scenario_known sc Hsc) as [_ Hm]. destruct (experiment_total (jb_world jb) (jb_order jb) (jb_now jb) (jb_draws jb) sc (jo_world _ J) (jo_order _ J)) as (v & m & E & _ & _ & Em & _).
  pose proof Em as Ex. unfold experiment in Ex. rewrite E in Ex. cbn [rbind] in Ex. rewrite decide_False in Ex by done.
  apply simulate_inv in Ex as (m0 & H0 & _). exists v, m0, m. done.
Qed.
Lemma run_in_ok num sc jb d v m0 m : run_of sc jb v m0 m ->
  run_in num sc jb d = Ok (change_dir (run_dir (jb_clock jb)) (saved_files num m0 m) (make_dir "sensor_data" (make_dir (run_dir (jb_clock jb)) d))).
Proof. intros [E1 E2 E3]. unfold run_in. rewrite E1. cbn [rbind]. rewrite E2. cbn [rbind]. by rewrite E3. Qed.
Lemma make_tables_ok names d : (forall t fs, t ∈ names -> alookup t d <> Some (EDir fs)) -> (make_tables names d).2 = true.
Proof.
  revert d. induction names as [|x names IH]; [done|]. intros d H. cbn [make_tables].
  destruct (make_file x d) as [d'|] eqn:E.
  - apply IH. intros t fs Ht. unfold make_file in E. pose proof (H t fs (elem_of_list_further _ _ _ Ht)) as Hn.
    destruct (decide (t = x)) as [->|Hne].
    + destruct (alookup x d) as [[|]|]; try done; injection E as <-; by rewrite alookup_ainsert_eq.
    + destruct (alookup x d) as [[|]|]; try done; injection E as <-; by rewrite alookup_ainsert_ne.
  - unfold make_file in E. destruct (alookup x d) as [[|fs]|] eqn:Ex; try done. by destruct (H x fs); [left|].
Qed.
Lemma make_tables_fail names d t fs : t ∈ names -> alookup t d = Some (EDir fs) -> (make_tables names d).2 = false.
Proof.
  intros Ht. revert d. induction Ht as [t names|t x names Ht IH]; intros d E; cbn [make_tables].
  - unfold make_file. by rewrite E.
  - destruct (make_file x d) as [d'|] eqn:Ex; [|done]. apply IH. unfold make_file in Ex.
    assert (t <> x). { intros ->. by rewrite E in Ex. }
    destruct (alookup x d) as [[|]|]; try done; injection Ex as <-; by rewrite alookup_ainsert_ne.
Qed.
Lemma not_run name n : name ∈ "sensor_data" :: tables -> ~ is_run name n.
Proof.
  intros H Hr. assert (M : matches_run run_pattern name = true) by (apply run_iff; by exists n).
  unfold tables in H. each_in H. all: vm_compute in M; discriminate M.
Qed.
(** The files of the run in the directory. *)
Lemma scenario_files num sc jb d d' v m0 m : job_ok jb -> run_of sc jb v m0 m -> usable d (jb_clock jb) -> scenario_in num sc jb d = Ok d' ->
  exists fs, alookup (run_dir (jb_clock jb)) d' = Some (EDir (saved_files num m0 m fs)).
Proof.
  intros J R [U1 U2]. unfold scenario_in. set (c := run_dir (jb_clock jb)) in *. set (n := clock_number (jb_clock jb)).
  assert (Hr : is_run c n) by (apply run_dir_run, J).
  assert (Ht : c ∉ tables) by (intros H; by apply (not_run c n); [right|]). assert (Hs : c <> "sensor_data") by (intros E; apply (not_run c n); [rewrite E; left|done]).
  pose proof (make_tables_ok tables d) as Hok. pose proof (leaves_tables tables tables d ltac:(done) c Ht) as [El _].
  destruct (make_tables tables d) as [d1 b] eqn:E1. cbn [fst snd] in *. rewrite Hok.
  2: { intros t fs Htt Ed. apply (U1 t Htt). by apply (entries_lookup d t (EDir fs)). }
  rewrite (run_in_ok num sc jb d1 v m0 m R). intros [= <-]. fold c.
  assert (Hc : exists fs, alookup c (make_dir "sensor_data" (make_dir c d1)) = Some (EDir fs)).
  { assert (H : exists fs, alookup c (make_dir c d1) = Some (EDir fs)).
    { unfold make_dir. destruct (alookup c d1) as [[|fs]|] eqn:Ec.
      - exfalso. apply U2. apply (entries_lookup d c EFile). congruence.
      - by exists fs.
      - exists []. by rewrite alookup_ainsert_eq. }
    destruct H as [fs H]. exists fs. rewrite <- H. unfold make_dir at 1. destruct (alookup "sensor_data" _); [done|]. by rewrite alookup_ainsert_ne. }
  destruct Hc as [fs Hc]. exists fs. unfold change_dir. by rewrite Hc, alookup_ainsert_eq.
Qed.
Lemma run_holds T num sc jb v m0 m fs : reads_back T num -> sc ∈ scenario_list -> job_ok jb -> run_of sc jb v m0 m -> holds_run T (saved_files num m0 m fs) m0 m.
Proof.
  intros RB Hsc J [E1 E2 E3]. destruct (scenario_known sc Hsc) as [Hp Hm]. destruct J as [jo_clock0 jo_world0 jo_random0 jo_sine0 jo_order0 jo_draws0 jo_now0].
  destruct (scenario_survives T num _ _ _ _ _ _ _ Hp Hm RB jo_now0 jo_order0 jo_world0 jo_random0 jo_draws0 jo_sine0 E1 E3) as [Hv Hs].
  destruct (saved_ok T num _ _ _ _ _ _ _ fs Hv E2 jo_world0 Hs) as (A & B & C & D & F & G). by constructor.
Qed.

Lemma main_total num jobs dk : (forall sc, sc ∈ scenario_list -> job_ok (jobs sc)) -> exists dk', main_program num jobs dk = Ok dk'.
Proof.
  intros J. apply realworld_total. intros sc d Hsc. destruct (run_exists sc (jobs sc) Hsc (J sc Hsc)) as (v & m0 & m & R). unfold scenario_in.
  destruct (make_tables tables d) as [d1 []]; [|by eexists]. rewrite (run_in_ok num sc _ d1 v m0 m R). by eexists.
Qed.
Lemma main_saved T num jobs dk : reads_back T num -> (forall sc, sc ∈ scenario_list -> job_ok (jobs sc)) ->
  exists dk', main_program num jobs dk = Ok dk' ∧ forall sc, sc ∈ scenario_list -> usable (dir_of dk sc) (jb_clock (jobs sc)) ->
    exists v m0 m, run_of sc (jobs sc) v m0 m ∧ holds_run T (files_of (dir_of dk' sc) (run_dir (jb_clock (jobs sc)))) m0 m.
Proof.
  intros RB J. destruct (main_total num jobs dk J) as [dk' E]. exists dk'. split; [done|]. intros sc Hsc U.
  destruct (run_exists sc (jobs sc) Hsc (J sc Hsc)) as (v & m0 & m & R). exists v, m0, m. split; [done|].
  destruct (realworld_each _ _ _ _ _ scenario_names E) as [H _].
  destruct (scenario_files num sc _ _ _ v m0 m (J sc Hsc) R U (H sc Hsc)) as [fs Ef]. unfold files_of. rewrite Ef. exact (run_holds T num sc _ v m0 m fs RB Hsc (J sc Hsc) R).
Qed.
Lemma main_kept num jobs dk dk' sc name : main_program num jobs dk = Ok dk' ->
  sc ∉ scenario_list ∨ name <> run_dir (jb_clock (jobs sc)) ∧ name <> "sensor_data" ∧ name ∉ tables -> alookup name (dir_of dk' sc) = alookup name (dir_of dk sc).
Proof.
  intros E H. destruct (realworld_each _ _ _ _ _ scenario_names E) as [H1 H2]. destruct (decide (sc ∈ scenario_list)) as [Hs|Hs]; [|by rewrite (H2 sc Hs)].
  destruct H as [|(N1 & N2 & N3)]; [done|]. apply (scenario_leaves _ _ _ _ _ (H1 sc Hs)). unfold touched. by rewrite !not_elem_of_cons.
Qed.
Lemma main_skipped num jobs dk dk' sc t fs name : main_program num jobs dk = Ok dk' -> t ∈ tables -> alookup t (dir_of dk sc) = Some (EDir fs) -> name ∉ tables ->
  alookup name (dir_of dk' sc) = alookup name (dir_of dk sc).
Proof.
  intros E Ht Et Hn. destruct (realworld_each _ _ _ _ _ scenario_names E) as [H1 H2]. destruct (decide (sc ∈ scenario_list)) as [Hs|Hs]; [|by rewrite (H2 sc Hs)].
  specialize (H1 sc Hs). unfold scenario_in in H1. pose proof (make_tables_fail tables _ t fs Ht Et) as F. pose proof (leaves_tables tables tables (dir_of dk sc) ltac:(done) name Hn) as [L _].
  destruct (make_tables tables (dir_of dk sc)) as [d b]. cbn [fst snd] in *. subst b. by injection H1 as <-.
Qed.
Lemma urban_scenario : "urban_traffic" ∈ scenario_list.
Proof. left. Qed.
Lemma main_then b num order jobs dk h : let jb := jobs "urban_traffic" in let d := dir_of dk "urban_traffic" in
  reads_back (lb_text b) num -> (forall sc, sc ∈ scenario_list -> job_ok (jobs sc)) -> lab_ok b -> reorders order -> usable d (jb_clock jb) ->
  (forall s n, (s, true) ∈ entries_of d -> is_run s n -> n <= clock_number (jb_clock jb)) ->
  exists dk' v m0 m hi a, main_program num jobs dk = Ok dk' ∧ run_of "urban_traffic" jb v m0 m ∧ 299800 <= hi <= 299900 ∧
    temporal_main b order dk' h = Ok (Some a) ∧ correct v m (lb_now b) 0 hi a.
Proof.
  intros jb d RB J B Hr U Hmax. destruct (main_total num jobs dk J) as [dk' E]. exists dk'. pose proof (J _ urban_scenario) as Jb. fold jb in Jb.
  destruct (run_exists "urban_traffic" jb urban_scenario Jb) as (v & m0 & m & R). exists v, m0, m.
  destruct (realworld_each _ _ _ _ _ scenario_names E) as [H _]. specialize (H _ urban_scenario). fold jb d in H.
  destruct (scenario_files num _ _ _ _ v m0 m Jb R U H) as [fs Ef]. pose proof (scenario_leaves _ _ _ _ _ H) as L.
  set (d' := dir_of dk' "urban_traffic") in *. destruct Jb as [jo_clock0 jo_world0 jo_random0 jo_sine0 jo_order0 jo_draws0 jo_now0], R as [R1 R2 R3].
  assert (N : newest (entries_of d') (jb_clock jb)).
  { split; [exact (entries_lookup _ _ _ Ef)|]. intros s n Hin Hs. destruct (decide (s = run_dir (jb_clock jb))) as [->|Hne].
    - pose proof (run_dir_run _ jo_clock0) as Hc. apply TempDir.run_number in Hs. apply TempDir.run_number in Hc. lia.
    - apply (Hmax s n); [|done]. unfold entries_of in Hin. apply elem_of_list_fmap in Hin as ([s' e] & [= -> Ee] & Hin). rewrite Ee. apply (entries_in d).
      apply (L s'); [|done]. unfold touched. rewrite !not_elem_of_cons. split; [done|]. split; [intros ->; by apply (not_run "sensor_data" n); [left|]|].
      intros Hin'. by apply (not_run s' n); [right|]. }
  destruct (urban_program b num order (entries_of d') (files_of d') h (jb_clock jb) _ _ _ _ v m0 m fs R3 jo_world0 jo_order0 jo_random0 jo_draws0 jo_sine0 R1 R2 B RB jo_now0 Hr jo_clock0 N) as (hi & a & Hhi & Ha & Hc).
  { unfold files_of. by rewrite Ef. }
  exists hi, a. split; [done|]. split; [by constructor|]. split; [done|]. split; [exact Ha|done].
Qed.
Lemma program_ext b order entries entries' content content' h : latest_dir entries' = latest_dir entries -> (forall s, latest_dir entries = Ok s -> content' s = content s) ->
  temporal_program b order entries' content' h = temporal_program b order entries content h.
Proof. intros E H. unfold temporal_program. rewrite E. destruct (latest_dir entries) as [s| |]; [|done..]. by rewrite (H s). Qed.
Lemma main_stale b num order jobs dk dk' h s n : let jb := jobs "urban_traffic" in let d := dir_of dk "urban_traffic" in
  main_program num jobs dk = Ok dk' -> clock_ok (jb_clock jb) -> (s, true) ∈ entries_of d -> is_run s n -> clock_number (jb_clock jb) < n ->
  temporal_main b order dk' h = temporal_main b order dk h.
Proof.
  intros jb d E Hc Hin Hs Hlt. destruct (realworld_each _ _ _ _ _ scenario_names E) as [H _]. specialize (H _ urban_scenario). fold jb d in H.
  pose proof (scenario_leaves _ _ _ _ _ H) as L. unfold temporal_main. fold d. set (d' := dir_of dk' "urban_traffic") in *.
  assert (Hrun : forall x k, is_run x k -> k <> clock_number (jb_clock jb) -> x ∉ touched (jb_clock jb)).
  { intros x k Hx Hk. unfold touched. rewrite !not_elem_of_cons. split; [|split; [intros ->; by apply (not_run "sensor_data" k); [left|]|intros Hx'; by apply (not_run x k); [right|]]].
    intros ->. pose proof (run_dir_run _ Hc) as Hc'. apply TempDir.run_number in Hx. apply TempDir.run_number in Hc'. lia. }
  assert (Hent : forall x k, is_run x k -> k <> clock_number (jb_clock jb) -> (x, true) ∈ entries_of d' <-> (x, true) ∈ entries_of d).
  { intros x k Hx Hk. destruct (L x (Hrun x k Hx Hk)) as [_ I]. unfold entries_of. rewrite !elem_of_list_fmap.
    split; intros ([x' e] & [= <- Ee] & He); exists (x, e); (split; [f_equal; exact Ee|by apply I]). }
  assert (Hsn : forall x, latest_dir (entries_of d) = Ok x -> exists k, is_run x k ∧ n <= k).
  { intros x (Hx & k & Hk & Hmax)%latest_spec. exists k. split; [done|]. by apply (Hmax s n). }
  apply program_ext.
  - destruct (latest_dir (entries_of d)) as [x| |] eqn:Ex.
    + destruct (Hsn x eq_refl) as (k & Hk & Hnk). apply latest_spec in Ex as (Hx & k' & Hk' & Hmax).
      assert (k' = k) as -> by (apply TempDir.run_number in Hk, Hk'; lia).
      destruct (latest_dir (entries_of d')) as [y| |] eqn:Ey.
      * apply latest_spec in Ey as (Hy & j & Hj & Hmax'). f_equal.
        assert (k <= j) by (apply (Hmax' x k); [apply (Hent x k); [done|lia|done]|done]).
        assert (j <= k) by (apply (Hmax y j); [apply (Hent y j); [done|lia|done]|done]).
        assert (j = k) as -> by lia. destruct Hk as [_ ->], Hj as [_ ->]. done.
      * exfalso. rewrite latest_none in Ey. apply (Ey x k); [|done]. apply (Hent x k); [done|lia|done].
      * by apply latest_total in Ey.
    + exfalso. rewrite latest_none in Ex. by apply (Ex s n).
    + by apply latest_total in Ex.
  - intros x Hx. destruct (Hsn x Hx) as (k & Hk & Hnk). unfold files_of. destruct (L x) as [-> _]; [|done]. apply (Hrun x k); [done|lia].
Qed.
