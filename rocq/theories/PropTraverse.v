(** Properties C90 and C149: defaults, clean-up and export reach every element of a document, at any depth. *)
From Verif Require Import PyBase PyNum Json Version Classes Traverse SpecTraverse TraverseFacts SpecForeign ForeignFacts.
Open Scope string_scope.

(** The generic traversals of the code never raise on the data of a document, and what they
    compute is what Classes.v computes shape by shape. *)
Theorem C90_defaults : forall ver d, set_default_values ver (p_data d) = Ok (p_data (data_defaults ver d)).
Proof. exact p_data_defaults. Qed.
Print Assumptions C90_defaults.
Theorem C90_clean : forall ver d,
  clean_unsupported_attributes ver (p_data d) = Ok (p_data (data_clean_unsupported ver d)).
Proof. exact p_data_clean. Qed.
Print Assumptions C90_clean.
Theorem C90_export : forall ver d, to_json ver (p_data d) = Ok (VDict (data_json ver d)).
Proof. exact p_data_json. Qed.
Print Assumptions C90_export.

(** In whatever object, however nested: once defaults are set no element has a None attribute
    for which its class has a default (other than None) in this version. *)
Theorem C90_everywhere : forall ver p q, set_default_values ver p = Ok q ->
  forall c a, occurs c a q -> forall k, In (k, PNone) a ->
  dget k (default_values c ver) = None \/ dget k (default_values c ver) = Some VNone.
Proof. exact defaults_everywhere. Qed.
Print Assumptions C90_everywhere.
Theorem C90_loaded : forall v x, load_document v = Ok x ->
  forall c a, occurs c a (p_data (doc_data x)) -> forall k, In (k, PNone) a ->
  dget k (default_values c (doc_version x)) = None \/ dget k (default_values c (doc_version x)) = Some VNone.
Proof. exact loaded_no_null. Qed.
Print Assumptions C90_loaded.

(** A deform keyframe, seven levels down, without time, vertices and curve. *)
Definition j90 : val :=
  VDict [("skeleton", VDict [("spine", VStr "3.8.99")]); ("bones", VList [VDict [("name", VStr "root")]]);
         ("slots", VList [VDict [("name", VStr "s"); ("bone", VStr "root")]]); ("skins", VList []);
         ("animations", VDict [("a", VDict [("deform", VDict [("sk", VDict [("s", VDict [("m",
            VList [VDict [("offset", VInt 2); ("c2", VInt 0)]])])])])])])].
Example C90_ex : exists x a, load_document j90 = Ok x /\ occurs CDeform a (p_data (doc_data x)) /\
  a = [("vertices", PList []); ("time", PInt 0); ("curve", PList []); ("offset", PInt 2); ("c2", PInt 0);
       ("c3", PInt 1); ("c4", PInt 1)] /\
  to_json (doc_version x) (PElem CDeform a) = Ok (VDict [("offset", VInt 2)]).
Proof.
  do 2 eexists. split; [vm_compute; reflexivity | ]. split; [ | split; [reflexivity | vm_compute; reflexivity]].
  eapply occurs_attr; [ vm_compute; do 7 right; left; reflexivity | ].
  eapply occurs_dict; [ left; reflexivity | ].
  eapply occurs_attr; [ vm_compute; do 7 right; left; reflexivity | ].
  do 3 (eapply occurs_dict; [ left; reflexivity | ]).
  eapply occurs_list; [left; reflexivity | ]. constructor.
Qed.
(** Anything that is not JSON or an element is refused. *)
Example C90_ex_refused : to_json SPINE_3_8 (PList [PInt 1; POther]) = Err (EType "Internal error serializing spine data").
Proof. reflexivity. Qed.

(** ** C149: what cannot be saved *)
Theorem C149_raise : forall ver p, foreign p -> (exists m, set_default_values ver p = Err (EType m)) /\ (exists m, to_json ver p = Err (EType m)).
Proof. exact traversals_raise. Qed.
Print Assumptions C149_raise.
Theorem C149_work : forall ver p, ~ foreign p -> (exists q, set_default_values ver p = Ok q) /\ (exists v, to_json ver p = Ok v).
Proof. exact traversals_work. Qed.
Print Assumptions C149_work.
Theorem C149_clean : forall ver p, (foreign_kept ver p -> exists m, clean_unsupported_attributes ver p = Err (EType m)) /\
  (~ foreign_kept ver p -> exists q, clean_unsupported_attributes ver p = Ok q).
Proof. exact cleaning_raises. Qed.
Print Assumptions C149_clean.
Theorem C149_clean_real : forall ver p, (0 <= v_patch ver)%Z -> foreign p -> exists m, clean_unsupported_attributes ver p = Err (EType m).
Proof. exact cleaning_real. Qed.
Print Assumptions C149_clean_real.
(** A keyframe with a tuple as c2 cannot be exported, nor cleaned up for 3.7.  For a version with
    a negative patch number the attribute is removed, and then the keyframe can be exported. *)
Definition p149 : pyobj := PList [PElem CBoneRS [("time", PInt 0); ("c2", POther)]].
Definition v149 : version := mkVersion 2 7 (-1).
Example C149_ex : foreign p149 /\ to_json SPINE_3_7 p149 = Err (EType "Internal error serializing spine data") /\
  clean_unsupported_attributes SPINE_3_7 p149 = Err (EType "Internal error serializing spine data") /\ ~ foreign_kept v149 p149 /\
  exists q, clean_unsupported_attributes v149 p149 = Ok q /\ ~ foreign q /\ to_json SPINE_3_7 q = Ok (VList [VDict [("time", VInt 0)]]).
Proof.
  split; [eapply foreign_list; [left; reflexivity | ]; eapply foreign_attr; [right; left; reflexivity | constructor] | ]. split; [reflexivity | ]. split; [reflexivity | ].
  assert (forall p q, set_default_values SPINE_3_7 p = Ok q -> ~ foreign p) as N.
  { intros p q E F. destruct (traversals_raise SPINE_3_7 _ F) as [[m K] _]. rewrite K in E. discriminate E. }
  split. { intros K. destruct (proj1 (cleaning_raises v149 p149) K) as [m E]. vm_compute in E. discriminate E. }
  eexists. split; [reflexivity | ]. split; [eapply N; reflexivity | reflexivity].
Qed.
