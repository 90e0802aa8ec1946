(** Runs of the vehicle data generator that stop before they write anything. *)
From Verif Require Import Base BaseLemmas BaseSpec BaseSpecLemmas Tson F64 Bytes Json Serial Heap Patch Vss VssSpec VssLemmas VssData TjsonLemmas VssRun JsonDemo VssDemo VssRunDemo.
From Coq Require Import Lia.

Lemma group_stop l : forall acc k x, (k, x) ∈ l -> last_dot k = None -> group l acc = Panic.
Proof.
  induction l as [|[key val] l IH]; intros acc k x Hin Hk; [by apply elem_of_nil in Hin|].
  apply elem_of_cons in Hin as [[= -> ->]|H].
  - cbn [group]. by rewrite Hk.
  - cbn [group]. destruct (last_dot key) as [[p n]|]; [|done]. by eapply IH.
Qed.
Lemma run_stops T num fmt0 compound no_text e o dataset cars n c m size fs :
  alookup "dataset" o = Some (WStr dataset) -> alookup "cars" o = Some (WInt cars) -> alookup "files" o = Some (WInt n) ->
  alookup "change_rate" o = Some (WNum c) -> alookup "maintain_rate" o = Some (WNum m) -> alookup "size" o = Some (WNum size) ->
  ~ is_map (e_read e dataset) ∨
    (exists b d k x, new_vss (e_read e dataset) = Ok (Vss b d) ∧ keyed schema_name d ∧ leaf_at d [k] x ∧ 1 <= cars) ->
  run_generate T num fmt0 compound no_text e o fs = (fs, Panic).
Proof.
  intros H1 H2 H3 H4 H5 H6 H. unfold run_generate, run_options, opt_text, opt_int, opt_float.
  rewrite H1, H2, H3, H4, H5, H6. cbn [rbind].
  destruct H as [H|(b & d & k & x & E & Hk & Hl & Hc)].
  - unfold new_vss, remove_keys. cbn [v_init v_data]. destruct (e_read e dataset); try done. destruct H. by eexists.
  - rewrite E. destruct (seqZ 1 cars) as [|i is] eqn:Es.
    { apply (f_equal length) in Es. rewrite seqZ_length in Es. cbn in Es. lia. }
    cbn [car_files]. unfold generate. cbn [v_data].
    assert (Hm : is_map d) by (inversion Hl; by eexists).
    assert (Hin : (dotted [k], x) ∈ leaf_nodes d).
    { apply leaf_nodes_spec; [done|by apply schema_nonempty|]. by exists [k]. }
    assert (Hs : schema_name k).
    { assert (HF := leaf_at_names _ _ _ _ Hk Hl). by inversion HF. }
    rewrite (group_stop _ _ _ _ Hin); [done|]. apply last_dot_none. destruct Hs as [_ Hs].
    change (dotted [k]) with k. by apply free_contains.
Qed.
(** A file with an attribute outside of any node. *)
Definition stray_file : wjson := WObj [("Vehicle", WObj [("Speed", WObj [("datatype", WStr "float")])]); ("version", WStr "4")].
Definition stray_env : env := Env (fun s => if decide (s = "vss.json") then stray_file else WNull) (e_draws demo_env) (e_nodes demo_env) (e_maps demo_env) (e_time demo_env).
Lemma stray_stops : ~ is_map (e_read stray_env "none.json") ∧
  exists b d k x, new_vss (e_read stray_env "vss.json") = Ok (Vss b d) ∧ keyed schema_name d ∧ leaf_at d [k] x ∧ 1 <= 1.
Proof.
  split; [by intros [m H]|]. exists false, stray_file, "version", (WStr "4"). split; [vm_compute; reflexivity|]. split; [show_keyed|]. split; [|lia].
  eapply la_in; [|by right; left|constructor; left; by intros [m H]]. intros (m & [= <-] & H). revert H. vm_compute. set_solver.
Qed.
