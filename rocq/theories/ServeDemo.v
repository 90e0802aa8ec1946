(** Concrete cases for [Prop_Serve.v]. *)
From stdpp Require Import pretty.
From Verif Require Import Base BaseSpec BaseLemmas BaseSpecLemmas F64 Tson Tjson TjsonSpec TjsonLemmas Vss VssRun Serve ServeSpec ServeLemmas.

(** The directories and files of a tree. *)
Fixpoint dir_list (n : node) : list (list string) :=
  match n with
  | NFile _ => []
  | NDir kids => [] :: (fix go (kids : list (string * node)) : list (list string) :=
      match kids with [] => [] | (k, n') :: kids' => map (cons k) (dir_list n') ++ go kids' end) kids
  end.
Fixpoint file_list (n : node) : list (list string * string) :=
  match n with
  | NFile s => [([], s)]
  | NDir kids => (fix go (kids : list (string * node)) : list (list string * string) :=
      match kids with [] => [] | (k, n') :: kids' => map (fun f => (k :: fst f, snd f)) (file_list n') ++ go kids' end) kids
  end.
Lemma dir_listed l : forall n kids, node_at l n = Some (NDir kids) -> l ∈ dir_list n.
Proof.
  induction l as [|k l IH]; intros [s|ks] kids E; try done; [cbn; apply elem_of_cons; by left|]. cbn [node_at] in E.
  destruct (alookup k ks) as [n'|] eqn:E'; [|done]. apply alookup_Some_in in E'. apply IH in E. cbn [dir_list]. apply elem_of_cons. right. clear kids IH. revert E'.
  induction ks as [|[k1 n1] ks IHk]; intros Hin; [inversion Hin|]. apply elem_of_app. apply elem_of_cons in Hin as [[= <- <-]|Hin]; [left|right; by apply IHk].
  apply elem_of_list_fmap. by exists l.
Qed.
Lemma file_listed l : forall n s, node_at l n = Some (NFile s) -> (l, s) ∈ file_list n.
Proof.
  induction l as [|k l IH]; intros [s0|ks] s E; try done; [injection E as <-; cbn; apply elem_of_cons; by left|]. cbn [node_at] in E.
  destruct (alookup k ks) as [n'|] eqn:E'; [|done]. apply alookup_Some_in in E'. apply IH in E. cbn [file_list]. clear IH. revert E'.
  induction ks as [|[k1 n1] ks IHk]; intros Hin; [inversion Hin|]. apply elem_of_app. apply elem_of_cons in Hin as [[= <- <-]|Hin]; [left|right; by apply IHk].
  apply elem_of_list_fmap. by exists (l, s).
Qed.

(** The repository with a data set of two cars. *)
Definition data0 : node :=
  NDir [("metadata.json", NFile "{}");
        ("car_1", NDir [("tson", NDir [("1_1.tson", NFile "first"); ("1_2.tson", NFile "second")]); ("patches", NDir [("1_1.json", NFile "first"); ("1_2.json", NFile "[]")])]);
        ("car_2", NDir [("tson", NDir []); ("patches", NDir [])])].
Definition files0 : files :=
  [("metadata.json", "{}"); ("car_1/tson/1_1.tson", "first"); ("car_1/tson/1_2.tson", "second"); ("car_1/patches/1_1.json", "first"); ("car_1/patches/1_2.json", "[]")].
Definition repo0 : node :=
  NDir [("srv", NDir [("index.html", NFile "<html>"); ("dataset", data0); ("internal", NDir [("tson", NDir [("tson.go", NFile "package tson")])])]);
        ("etc", NDir [("passwd", NFile "root")])].
Lemma repo_data : node_at (["srv"] ++ ["dataset"]) repo0 = Some data0.
Proof. reflexivity. Qed.
Lemma data_tidy l kids : node_at l data0 = Some (NDir kids) -> data_dir l.
Proof.
  intros H%dir_listed. change (dir_list data0) with
    ([[]; ["car_1"]; ["car_1"; "tson"]; ["car_1"; "patches"]; ["car_2"]; ["car_2"; "tson"]; ["car_2"; "patches"]]) in H.
  repeat (apply elem_of_cons in H as [->|H]); [apply dd_top|apply (dd_car 1)|apply (dd_sub 1); by left|apply (dd_sub 1); by right|apply (dd_car 2)|apply (dd_sub 2); by left|apply (dd_sub 2); by right|inversion H].
Qed.
Lemma repo_tidy : tidy_data repo0 ["srv"].
Proof. intros l kids E. rewrite (data_at _ _ _ repo_data) in E. by eapply data_tidy. Qed.
Definition nested (l : list string) : bool := match rev l with _ :: s :: _ => bool_decide (s = "tson") || bool_decide (s = "patches") | _ => false end.
Lemma nesting_checked root : forallb (fun l => negb (nested l)) (dir_list root) = true -> no_nesting root.
Proof.
  intros H p s k kids Hs E%dir_listed. rewrite forallb_forall in H. apply elem_of_list_In in E. apply H, negb_true_iff in E. unfold nested in E.
  rewrite rev_app_distr in E. cbn in E. destruct Hs as [->| ->]; by vm_compute in E.
Qed.
Lemma repo_flat : no_nesting repo0.
Proof. apply nesting_checked. vm_compute. reflexivity. Qed.
Lemma data_stands : stands data0 files0.
Proof.
  intros name s. split.
  - intros H%alookup_Some_in. repeat (apply elem_of_cons in H as [[= -> ->]|H]); [eexists; split; [apply names_split; vm_compute; reflexivity|reflexivity]..|inversion H].
  - intros (l & Hn & H%file_listed). change (file_list data0) with
      [(["metadata.json"], "{}"); (["car_1"; "tson"; "1_1.tson"], "first"); (["car_1"; "tson"; "1_2.tson"], "second"); (["car_1"; "patches"; "1_1.json"], "first"); (["car_1"; "patches"; "1_2.json"], "[]")] in H.
    assert (C : name = String.concat "/" l).
    { clear H. induction Hn as [s0 H|s0 c r l H [<-|[]] Hr IH]; [done|]. destruct l as [|x l]; [inversion Hr|]. rewrite IH. reflexivity. }
    subst name. repeat (apply elem_of_cons in H as [[= -> ->]|H]); [vm_compute; reflexivity..|inversion H].
Qed.
Lemma repo_answers : update_answer repo0 ["srv"] "1" "" = "first" ∧ update_answer repo0 ["srv"] "1" "2" = "[]" ∧ update_answer repo0 ["srv"] "3" "" = "" ∧
  update_answer repo0 ["srv"] "1/../../.." "" = "" ∧ update_answer repo0 ["srv"] "1" "/../../../../../etc/passwd" = "".
Proof. vm_compute. repeat split. Qed.
(** A directory "tson" with a directory in it, elsewhere. *)
Definition lair : node :=
  NDir [("srv", NDir [("dataset", data0)]); ("backup", NDir [("tson", NDir [("1", NDir [])])]); ("backup_1.tson", NFile "secret")].
Lemma lair_tidy : tidy_data lair ["srv"].
Proof. intros l kids E. assert (H : node_at (["srv"] ++ ["dataset"]) lair = Some data0) by reflexivity. rewrite (data_at _ _ _ H) in E. by eapply data_tidy. Qed.
Lemma lair_read : update_answer lair ["srv"] "1/../../../backup" "" = "secret" ∧ forall l, node_at (["srv"; "dataset"] ++ l) lair ≠ Some (NFile "secret").
Proof.
  split; [vm_compute; reflexivity|]. intros l E. change (node_at (["srv"; "dataset"] ++ l) lair) with (node_at l data0) in E. apply file_listed in E.
  vm_compute in E. repeat (apply elem_of_cons in E as [E|E]; [discriminate E|]). inversion E.
Qed.
Lemma escape : exists root cwd car s, tidy_data root cwd ∧ update_answer root cwd car "" = s ∧ s ≠ "" ∧ forall l, node_at (cwd ++ "dataset" :: l) root ≠ Some (NFile s).
Proof. exists lair, ["srv"], "1/../../../backup", "secret". split; [exact lair_tidy|]. split; [exact (proj1 lair_read)|]. split; [done|exact (proj2 lair_read)]. Qed.
