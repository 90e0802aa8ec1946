(** Examples of listings. *)
From Verif Require Import Base BaseSpec F64 Tson Bytes Serial JsonSpec JsonDemo Json Vss VssSpec VssFileSpec VssPatchDemo VssSaveDemo Temporal TempDemo ExactNum Store StoreSpec StoreDemo Listing ListingSpec.

Definition feed : string := String (ascii_of_N 10) "".
Definition small : wjson := WObj [("b", WArr [WInt 1; WObj []]); ("a", WStr ("x" +++ feed +++ "y"))].
Definition small_listing : string :=
  "00001: {" +++ feed +++ "00002:     ""a"": ""x\ny""," +++ feed +++ "00003:     ""b"": [" +++ feed +++ "00004:         1," +++ feed +++
  "00005:         {}" +++ feed +++ "00006:     ]" +++ feed +++ "00007: }" +++ feed.
Lemma small_case : print_index exact_num small = small_listing ∧ rows small = 7%nat ∧ rows sample = 10%nat.
Proof. vm_compute. done. Qed.
Lemma lost_case : print_index exact_num (WArr [WNum S754_nan]) = "00001: " +++ feed.
Proof. vm_compute. done. Qed.
Lemma print_case : print_data lib go_fmt0 demo1 = saved_demo +++ feed.
Proof. vm_compute. reflexivity. Qed.
