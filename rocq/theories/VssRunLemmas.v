(** Facts about the runs of the vehicle data generator. *)
From stdpp Require Import pretty.
From Verif Require Import Base BaseLemmas BaseSpec BaseSpecLemmas Tson TsonInd TsonSpec F64 F64Lemmas Serial TextSpec TextLemmas Heap Patch PatchSpec PatchLemmas Diff DiffSpec DiffApply Bytes BytesLemmas
  Json JsonSpec JsonLemmas JsonWrite JsonTson Vss VssSpec VssLemmas VssPlace VssGen VssData VssNext VssPatchSpec VssTidy VssRenew VssFileSpec VssSave VssFile VssPatchFileSpec VssPatchFile
  Logument VssRun VssRunSpec.
From Coq Require Import Lia.

(** ** Names of files *)
Lemma z_text_pretty z : z_text z = pretty z.
Proof.
  unfold z_text. destruct z as [|p|p]; cbn [Z.ltb Z.compare Z.to_N Z.opp]; rewrite dec_text_pretty; done.
Qed.
Lemma tson_named i j : tson_name i j = tson_path i j.
Proof. unfold tson_name, tson_path. by rewrite !z_text_pretty. Qed.
Lemma patch_named i j : patch_name i j = patch_path i j.
Proof. unfold patch_name, patch_path. by rewrite !z_text_pretty. Qed.
Lemma z_text_no c z : is_digit c = false -> c ≠ "-"%char -> contains c (z_text z) = false.
Proof.
  intros Hc Hm. unfold z_text. case_match.
  - cbn [contains]. apply orb_false_iff. split; [by apply bool_decide_eq_false; congruence|].
    apply digits_no; [done|apply dec_text_spec].
  - apply digits_no; [done|apply dec_text_spec].
Qed.
Lemma sep_inj c s s' r r' : contains c s = false -> contains c s' = false -> s +++ String c r = s' +++ String c r' -> s = s' ∧ r = r'.
Proof.
  revert s'. induction s as [|a s IH]; intros [|a' s'] H H' E; cbn [contains append] in *.
  - by injection E as ->.
  - injection E as -> _. by rewrite bool_decide_eq_true_2 in H'.
  - injection E as -> _. by rewrite bool_decide_eq_true_2 in H.
  - injection E as -> E. apply orb_false_iff in H as [_ H], H' as [_ H']. by destruct (IH s' H H' E) as [-> ->].
Qed.
Lemma sapp_inj_l s r r' : s +++ r = s +++ r' -> r = r'.
Proof. induction s as [|a s IH]; [done|]. cbn [append]. intros E. injection E as E. by apply IH. Qed.
Lemma tson_name_inj i j i' j' : tson_name i j = tson_name i' j' -> i = i' ∧ j = j'.
Proof.
  unfold tson_name. intros E%sapp_inj_l.
  apply (sep_inj "/") in E as [E1 E]; [|by apply z_text_no..]. apply z_text_inj in E1 as <-. split; [done|].
  apply (sapp_inj_l "tson/") in E. apply sapp_inj_l in E. injection E as E.
  apply (sep_inj ".") in E as [E _]; [|by apply z_text_no..]. by apply z_text_inj.
Qed.
Lemma patch_name_inj i j i' j' : patch_name i j = patch_name i' j' -> i = i' ∧ j = j'.
Proof.
  unfold patch_name. intros E%sapp_inj_l.
  apply (sep_inj "/") in E as [E1 E]; [|by apply z_text_no..]. apply z_text_inj in E1 as <-. split; [done|].
  apply (sapp_inj_l "patches/") in E. apply sapp_inj_l in E. injection E as E.
  apply (sep_inj ".") in E as [E _]; [|by apply z_text_no..]. by apply z_text_inj.
Qed.
Lemma tson_patch_ne i j i' j' : tson_name i j ≠ patch_name i' j'.
Proof.
  unfold tson_name, patch_name. intros E%sapp_inj_l.
  apply (sep_inj "/") in E as [E1 E]; [|by apply z_text_no..]. discriminate.
Qed.

(** ** One round *)
Section run.
Context (T : textlib) (num fmt0 : f64 -> string) (compound : json -> string) (no_text : option json -> string) (e : env).
Notation neat := (tidy (clean T) (value_saves T) (fun ts => 0 <= ts <= int64_max)).
Lemma time_int64 ts : 0 <= ts <= int64_max -> int64 ts.
Proof. unfold int64_max, int64. lia. Qed.
Lemma first_good size i b d : good_schema T num d -> good_env T num e ->
  exists r, generate size (e_draws e i 1) (e_nodes e i) (e_time e i 1) (Vss b d) = Ok (Vss true r) ∧
    telemetry T num r ∧ filed T r ∧ neat r ∧ data_file T r (save_data T fmt0 r) ∧
    (forall q, (exists x, leaf_at r q x) <-> node d q ∧ SFltb size (d_float (e_draws e i 1 (String.concat "." q)) 0) = false) ∧
    (forall q v t, cell r q v t -> t = e_time e i 1) ∧
    (forall q x, leaf_at r q x -> fits (attr d q) (e_time e i 1) x).
Proof.
  intros [H1 H2 H3 H4 H5] [G1 G2 _ G4]. destruct (G4 i 1) as [Ht Ht'].
  assert (HR : forall p, fair (e_draws e i 1 p)) by (intros p; apply (G1 i 1 p)).
  assert (HW : forall p, draws_write T num (e_draws e i 1 p)) by (intros p; apply (G1 i 1 p)).
  destruct (generate_telemetry T num size (e_draws e i 1) (e_nodes e i) (e_time e i 1) b d) as (r & E & TD & HN & HC); try done.
  destruct (first_files T num size (e_draws e i 1) (e_nodes e i) (e_time e i 1) b d) as (r' & E' & _ & FD); try done.
  { intros p. apply (G1 i 1 p). }
  { by apply time_int64. }
  rewrite E in E'. injection E' as <-.
  assert (HG : generated T d size size r).
  { eapply gd_first; [exact HR|intros p; apply (G1 i 1 p)|exact Ht'|intros l; apply G2|exact E]. }
  assert (HN' : neat r) by (by apply (generated_neat T d size size)).
  exists r. split; [done|]. split; [done|]. split; [done|]. split; [done|]. split; [by apply save_exact, neat_storable|].
  split; [done|]. split; [done|].
  destruct (generate_ok size (e_draws e i 1) (e_nodes e i) (e_time e i 1) b d) as (r' & E' & _ & _ & _ & HF & _); [done|done|intros l; apply G2|].
  rewrite E in E'. injection E' as <-. intros q x Hx. by apply HF.
Qed.
Lemma next_good c m i j d : good_env T num e -> telemetry T num d -> filed T d -> neat d ->
  exists d' p s, generate_next T num c m (e_draws e i j) (e_maps e i j) (e_time e i j) (Vss true d) = Ok (Vss true d', p) ∧
    save_patch T compound no_text p = Ok s ∧ patch_file T d d' s ∧ data_file T d' (save_data T fmt0 d') ∧ renewed (e_time e i j) d d' ∧ telemetry T num d'.
Proof.
  intros [G1 _ G3 G4] TD FD ND. destruct (G4 i j) as [Ht Ht'].
  assert (HR : forall p, fair (e_draws e i j p)) by (intros p; apply (G1 i j p)).
  assert (HW : forall p, draws_write T num (e_draws e i j p)) by (intros p; apply (G1 i j p)).
  assert (HS : forall p, draws_save T (e_draws e i j p)) by (intros p; apply (G1 i j p)).
  destruct (next_patch_exact T num c m (e_draws e i j) (e_maps e i j) (e_time e i j) d TD HR HW Ht (G3 i j)) as (d' & ops & E & TD' & HC & HO & HD).
  destruct (round_files T num compound no_text c m (e_draws e i j) (e_maps e i j) (e_time e i j) d TD FD HR HW) as (d2 & ops2 & s & ps & E2 & _ & _ & Es & H1 & H2 & H3);
    [intros p; apply (G1 i j p)|done|by apply time_int64|done|].
  rewrite E in E2. injection E2 as <- <-.
  assert (En : next_data c m (e_draws e i j) (e_time e i j) (Vss true d) = Ok d').
  { unfold generate_next in E. destruct (next_data _ _ _ _ _) as [d3| |]; try done. cbn [rbind v_data] in E. destruct d; try done.
    destruct (next_patch _ _ _ _ _); try done. cbn [rbind] in E. by injection E as -> _. }
  destruct (next_tidy (clean T) (value_saves T) (fun ts => 0 <= ts <= int64_max) (saves_admits T (e_draws e i j "") (HS "")) c m (e_draws e i j) (e_time e i j) d) as (d3 & E3 & ND' & HL & _);
    [done|done|intros p; exact (proj1 (HS p))|done|].
  rewrite En in E3. injection E3 as <-.
  exists d', (JArr ops), s. split; [done|]. split; [done|]. split; [by exists ops, ps|]. split; [|by split; [split|]].
  by apply save_exact, neat_storable.
Qed.

(** ** The files of one car *)
Definition first_data (size : f64) (v : vss) (i : Z) : wjson :=
  match generate size (e_draws e i 1) (e_nodes e i) (e_time e i 1) v with Ok r => v_data r | _ => WNull end.
Definition later_data (c m : f64) (d : wjson) (i j : Z) : wjson :=
  match generate_next T num c m (e_draws e i j) (e_maps e i j) (e_time e i j) (Vss true d) with Ok r => v_data (fst r) | _ => WNull end.
Lemma next_files_good c m i d : good_env T num e -> telemetry T num d -> filed T d -> neat d -> forall js fs, NoDup js ->
  exists fs', next_files T num fmt0 compound no_text e c m i js (Vss true d) fs = (fs', Ok tt) ∧
    (forall n, (forall j, j ∈ js -> n ≠ tson_name i j ∧ n ≠ patch_name i j) -> alookup n fs' = alookup n fs) ∧
    forall j, j ∈ js -> (exists s, alookup (tson_name i j) fs' = Some s ∧ data_file T (later_data c m d i j) s) ∧
      (exists s, alookup (patch_name i j) fs' = Some s ∧ patch_file T d (later_data c m d i j) s) ∧
      renewed (e_time e i j) d (later_data c m d i j) ∧ telemetry T num (later_data c m d i j).
Proof.
  intros GE TD FD ND. induction js as [|j js IH]; intros fs HJ.
  - exists fs. split; [done|]. split; [done|]. intros j []%elem_of_nil.
  - apply NoDup_cons in HJ as [Hj HJ].
    destruct (next_good c m i j d GE TD FD ND) as (d' & p & s & E & Es & H1 & H2 & H3 & H4).
    assert (El : later_data c m d i j = d') by (unfold later_data; by rewrite E).
    destruct (IH (ainsert (patch_name i j) s (ainsert (tson_name i j) (save_data T fmt0 d') fs)) HJ) as (fs' & E' & HO & HJs).
    exists fs'. split; [|split].
    + cbn [next_files]. rewrite E. cbn [v_data]. rewrite Es. done.
    + intros n Hn. rewrite HO by (intros j' Hj'; apply Hn; by right). destruct (Hn j) as [N1 N2']; [by left|].
      by rewrite !alookup_ainsert_ne.
    + intros j' [-> |Hj']%elem_of_cons; [|by apply HJs]. rewrite El. split; [|split; [|done]].
      * exists (save_data T fmt0 d'). split; [|done]. rewrite HO.
        -- rewrite alookup_ainsert_ne by apply tson_patch_ne. by rewrite alookup_ainsert_eq.
        -- intros j' Hj'. split; [|apply tson_patch_ne]. intros [_ ->]%tson_name_inj. done.
      * exists s. split; [|done]. rewrite HO; [by rewrite alookup_ainsert_eq|].
        intros j' Hj'. split; [intros E1; by symmetry in E1; apply tson_patch_ne in E1|]. intros [_ ->]%patch_name_inj. done.
Qed.
Definition run_data (c m size : f64) (v : vss) (i j : Z) : wjson :=
  if decide (j = 1) then first_data size v i else later_data c m (first_data size v i) i j.
(** What the files of car [i] are to be. *)
Record car_good (c m size : f64) (n : Z) (b : bool) (d : wjson) (i : Z) (fs : files) : Prop := CarGood {
  cg_telemetry : forall j, wanted n j -> telemetry T num (run_data c m size (Vss b d) i j);
  cg_data : forall j, wanted n j -> exists s, alookup (tson_name i j) fs = Some s ∧ data_file T (run_data c m size (Vss b d) i j) s;
  cg_copy : alookup (patch_name i 1) fs = alookup (tson_name i 1) fs;
  cg_patch : forall j, 2 <= j <= n -> exists s, alookup (patch_name i j) fs = Some s ∧
    patch_file T (run_data c m size (Vss b d) i 1) (run_data c m size (Vss b d) i j) s;
  cg_nodes : forall q, (exists x, leaf_at (run_data c m size (Vss b d) i 1) q x) <-> node d q ∧ SFltb size (d_float (e_draws e i 1 (String.concat "." q)) 0) = false;
  cg_time : forall q v t, cell (run_data c m size (Vss b d) i 1) q v t -> t = e_time e i 1;
  cg_round : forall j, 2 <= j <= n -> renewed (e_time e i j) (run_data c m size (Vss b d) i 1) (run_data c m size (Vss b d) i j);
  cg_fits : forall q x, leaf_at (run_data c m size (Vss b d) i 1) q x -> fits (attr d q) (e_time e i 1) x }.
Lemma one_car c m size n b d i fs : good_schema T num d -> good_env T num e ->
  exists fs', (forall is, car_files T num fmt0 compound no_text e c m size n (i :: is) (Vss b d) fs = car_files T num fmt0 compound no_text e c m size n is (Vss b d) fs') ∧
    (forall nm, (forall j, wanted n j -> nm ≠ tson_name i j ∧ nm ≠ patch_name i j) -> alookup nm fs' = alookup nm fs) ∧ car_good c m size n b d i fs'.
Proof.
  intros GS GE. destruct (first_good size i b d GS GE) as (r & E & TD & FD & ND & HD & HN & HC & HFit).
  assert (Er : first_data size (Vss b d) i = r) by (unfold first_data; by rewrite E).
  set (s := save_data T fmt0 r) in *.
  destruct (next_files_good c m i r GE TD FD ND (seqZ 2 (n - 1)) (ainsert (patch_name i 1) s (ainsert (tson_name i 1) s fs))) as (fs' & E' & HO & HJ);
    [apply NoDup_seqZ|].
  assert (Hj : forall j, 2 <= j <= n <-> j ∈ seqZ 2 (n - 1)) by (intros j; rewrite elem_of_seqZ; lia).
  assert (Ht : alookup (tson_name i 1) fs' = Some s).
  { rewrite HO; [rewrite alookup_ainsert_ne by apply tson_patch_ne; apply alookup_ainsert_eq|].
    intros j Hj'%Hj. split; [intros [_ ?]%tson_name_inj; lia|apply tson_patch_ne]. }
  assert (Hp : alookup (patch_name i 1) fs' = Some s).
  { rewrite HO; [apply alookup_ainsert_eq|].
    intros j Hj'%Hj. split; [intros E1; by symmetry in E1; apply tson_patch_ne in E1|intros [_ ?]%patch_name_inj; lia]. }
  assert (R1 : run_data c m size (Vss b d) i 1 = r) by (unfold run_data; by rewrite decide_True).
  assert (R2 : forall j, 2 <= j <= n -> run_data c m size (Vss b d) i j = later_data c m r i j).
  { intros j H. unfold run_data. rewrite decide_False by lia. by rewrite Er. }
  exists fs'. split; [|split].
  - intros is. cbn [car_files]. rewrite E. cbn [v_data]. fold s. rewrite E'. done.
  - intros nm Hnm. rewrite HO by (intros j Hj'%Hj; apply Hnm; by right).
    destruct (Hnm 1) as [N1 N2']; [by left|]. by rewrite !alookup_ainsert_ne.
  - constructor.
    + intros j [-> |Hj2]; [by rewrite R1|]. rewrite R2 by done. by apply HJ, Hj.
    + intros j [-> |Hj2]; [exists s; by rewrite R1|]. rewrite R2 by done. by apply HJ, Hj.
    + by rewrite Ht.
    + intros j Hj2. rewrite R1, R2 by done. by apply HJ, Hj.
    + by rewrite R1.
    + by rewrite R1.
    + intros j Hj2. rewrite R1, R2 by done. by apply HJ, Hj.
    + by rewrite R1.
Qed.
Lemma car_good_ext c m size n b d i fs fs' : (forall j, wanted n j -> alookup (tson_name i j) fs' = alookup (tson_name i j) fs ∧ alookup (patch_name i j) fs' = alookup (patch_name i j) fs) ->
  car_good c m size n b d i fs -> car_good c m size n b d i fs'.
Proof.
  intros H [H0 H1 H2 H3 H4 H5 H6 H7]. constructor; try done.
  - intros j Hj. rewrite (proj1 (H j Hj)). by apply H1.
  - destruct (H 1) as [-> ->]; [by left|]. done.
  - intros j Hj. rewrite (proj2 (H j (or_intror Hj))). by apply H3.
Qed.
Lemma all_cars c m size n b d : good_schema T num d -> good_env T num e -> forall is fs, NoDup is ->
  exists fs', car_files T num fmt0 compound no_text e c m size n is (Vss b d) fs = (fs', Ok tt) ∧
    (forall nm, (forall i j, i ∈ is -> wanted n j -> nm ≠ tson_name i j ∧ nm ≠ patch_name i j) -> alookup nm fs' = alookup nm fs) ∧
    forall i, i ∈ is -> car_good c m size n b d i fs'.
Proof.
  intros GS GE. induction is as [|i is IH]; intros fs HI.
  - exists fs. split; [done|]. split; [done|]. intros i []%elem_of_nil.
  - apply NoDup_cons in HI as [Hi HI]. destruct (one_car c m size n b d i fs GS GE) as (fs1 & E1 & HO1 & HG1).
    destruct (IH fs1 HI) as (fs' & E & HO & HG). exists fs'. split; [by rewrite E1|]. split.
    + intros nm Hnm. rewrite HO by (intros i' j' Hi'; apply Hnm; by right). apply HO1. intros j Hj. apply Hnm; [by left|done].
    + intros i' [-> |Hi']%elem_of_cons; [|by apply HG]. apply (car_good_ext _ _ _ _ _ _ _ fs1); [|done].
      intros j Hj. split; apply HO; intros i' j' Hi' Hj'.
      * split; [|apply tson_patch_ne]. by intros [-> _]%tson_name_inj.
      * split; [intros E2; by symmetry in E2; apply tson_patch_ne in E2|]. by intros [-> _]%patch_name_inj.
Qed.
Lemma opt_text_ok k o s : alookup k o = Some (WStr s) -> opt_text k o = Ok s.
Proof. unfold opt_text. by intros ->. Qed.
Lemma opt_int_ok k o z : alookup k o = Some (WInt z) -> opt_int k o = Ok z.
Proof. unfold opt_int. by intros ->. Qed.
Lemma opt_float_ok k o f : alookup k o = Some (WNum f) -> opt_float k o = Ok f.
Proof. unfold opt_float. by intros ->. Qed.
Lemma run_good o dataset cars n c m size b d fs :
  alookup "dataset" o = Some (WStr dataset) -> alookup "cars" o = Some (WInt cars) -> alookup "files" o = Some (WInt n) ->
  alookup "change_rate" o = Some (WNum c) -> alookup "maintain_rate" o = Some (WNum m) -> alookup "size" o = Some (WNum size) ->
  new_vss (e_read e dataset) = Ok (Vss b d) -> good_schema T num d -> good_env T num e ->
  exists fs' D, run_generate T num fmt0 compound no_text e o fs = (fs', Ok tt) ∧
    (forall nm, (forall i j, 1 <= i <= cars -> wanted n j -> nm ≠ tson_path i j ∧ nm ≠ patch_path i j) -> alookup nm fs' = alookup nm fs) ∧
    (forall i, 1 <= i <= cars ->
      (forall j, wanted n j -> telemetry T num (D i j) ∧ exists s, alookup (tson_path i j) fs' = Some s ∧ data_file T (D i j) s) ∧
      alookup (patch_path i 1) fs' = alookup (tson_path i 1) fs' ∧
      (forall j, 2 <= j <= n -> exists s, alookup (patch_path i j) fs' = Some s ∧ patch_file T (D i 1) (D i j) s) ∧
      (forall q, (exists x, leaf_at (D i 1) q x) <-> node d q ∧ SFltb size (d_float (e_draws e i 1 (String.concat "." q)) 0) = false) ∧
      (forall q v t, cell (D i 1) q v t -> t = e_time e i 1) ∧
      (forall j, 2 <= j <= n -> renewed (e_time e i j) (D i 1) (D i j)) ∧
      (forall q x, leaf_at (D i 1) q x -> fits (attr d q) (e_time e i 1) x)).
Proof.
  intros O1 O2 O3 O4 O5 O6 EV GS GE.
  destruct (all_cars c m size n b d GS GE (seqZ 1 cars) fs) as (fs' & E & HO & HG); [apply NoDup_seqZ|].
  assert (Hi : forall i, 1 <= i <= cars <-> i ∈ seqZ 1 cars) by (intros i; rewrite elem_of_seqZ; lia).
  exists fs', (run_data c m size (Vss b d)). split; [|split].
  - unfold run_generate, run_options. rewrite (opt_text_ok _ _ _ O1), (opt_int_ok _ _ _ O2), (opt_int_ok _ _ _ O3), (opt_float_ok _ _ _ O4), (opt_float_ok _ _ _ O5), (opt_float_ok _ _ _ O6).
    cbn [rbind]. by rewrite EV.
  - intros nm Hnm. apply HO. intros i j Hi'%Hi Hj. rewrite tson_named, patch_named. by apply Hnm.
  - intros i Hi'%Hi. destruct (HG i Hi') as [H0 H1 H2 H3 H4 H5 H6 H7]. rewrite <- tson_named, <- patch_named.
    split; [intros j Hj; rewrite <- tson_named; split; [by apply H0|by apply H1]|]. split; [done|]. split; [intros j; rewrite <- patch_named; apply H3|done].
Qed.
(** ** Without the rate of maintained values *)
Lemma run_missing o fs : alookup "maintain_rate" o = None -> run_generate T num fmt0 compound no_text e o fs = (fs, Panic).
Proof.
  intros H. unfold run_generate, run_options, opt_float. rewrite H. cbn [rbind].
  destruct (opt_text _ o); try done. destruct (opt_int "cars" o); try done. destruct (opt_int "files" o); try done.
  cbn [rbind]. destruct (alookup "change_rate" o) as [[]|]; done.
Qed.
Lemma vss_missing args old r : generate_vss T num fmt0 compound no_text e args old = Some r ->
  exists s, r = ([("metadata.json", s)], Panic).
Proof.
  unfold generate_vss. destruct args as [f|].
  - unfold parse_args. destruct ((fl_cars f <? 0) || (fl_files f <? 0)); [done|]. intros [= <-]. eexists. by apply run_missing.
  - intros [= <-]. eexists. by apply run_missing.
Qed.
End run.
