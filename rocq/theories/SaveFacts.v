(** The calls on files: what is written can be read back. *)
From Verif Require Import PyBase PyFacts PyNum Unicode SpecUnicode UnicodeFacts Json JsonText Version Classes Graph SpineGraph DrawOrder AnimData Editor Files SpecText SpecFiles FloatFacts TextFacts ReprFacts WriteFacts JsonInv FileFacts.
Open Scope string_scope.

Lemma to_json_save : forall cwd p e, to_json cwd p e = save cwd p (json_dumps (Some 4%nat) (editor_json e)).
Proof. reflexivity. Qed.
Lemma images_json_saved : forall e, images_json e = saved_images (e_images e).
Proof.
  intros e. unfold images_json, saved_images, dmap. f_equal. apply map_ext. intros [k i]. unfold image_json, saved_image. cbn [fst snd]. destruct (im_scale i); reflexivity.
Qed.
Lemma save_images_save : forall cwd p e, save_images_json cwd p e = save cwd p (json_dumps None (saved_images (e_images e))).
Proof. intros cwd p e. rewrite <- images_json_saved. reflexivity. Qed.
Lemma images_json_good : forall e, egood e -> json_value (saved_images (e_images e)).
Proof.
  intros e G. rewrite <- images_json_saved. destruct (eg_images e G) as [N H]. constructor.
  - unfold dkeys, dmap in *. rewrite map_map. cbn [fst]. exact N.
  - intros k v I. apply in_map_iff in I as ([k' i] & X & I). cbn [fst snd] in X. injection X as <- <-. specialize (H _ _ I). unfold image_json. constructor.
    + destruct (im_scale i); cbn; [ | repeat constructor; auto]. constructor; [intros [X | []]; discriminate | repeat constructor; auto].
    + intros k0 v0 [X | X]; [injection X as <- <-; constructor | ]. destruct (im_scale i) eqn:E; [ | destruct X]. destruct X as [X | []]. injection X as <- <-. constructor. auto.
Qed.

(** Reading back what a successful call has written *)
Theorem save_load : forall cwd ind p j f g, json_value j -> fs_ok f -> f cwd = Some Dir ->
  save cwd p (json_dumps ind j) f = (g, Ok tt) -> load_file cwd p g = Ok j.
Proof.
  intros cwd ind p j f g J K H E. destruct (save_safe _ _ _ _ _ _ K H E) as (_ & _ & (X & _)). unfold load_file. rewrite X. cbn [bind].
  apply loads_dumps; auto.
Qed.
Theorem to_json_read : forall cwd p e f g, used e -> fs_ok f -> f cwd = Some Dir ->
  to_json cwd p e f = (g, Ok tt) -> load_file cwd p g = Ok (editor_json e) /\ from_json_file cwd p g = mk_editor (editor_json e).
Proof.
  intros cwd p e f g U K H E. rewrite to_json_save in E. assert (L := save_load _ _ _ _ _ _ (used_json e U) K H E).
  split; auto. unfold from_json_file. rewrite L. reflexivity.
Qed.
Theorem images_read : forall cwd p e f g, used e -> fs_ok f -> f cwd = Some Dir ->
  save_images_json cwd p e f = (g, Ok tt) -> load_file cwd p g = Ok (saved_images (e_images e)).
Proof.
  intros cwd p e f g U K H E. rewrite save_images_save in E. eapply save_load; [ | exact K | exact H | exact E].
  apply images_json_good. apply used_good. exact U.
Qed.
(** What the calls do to the files, for any path *)
Theorem save_effect : forall cwd p x f g r, fs_ok f -> f cwd = Some Dir -> save cwd p x f = (g, r) ->
  fs_ok g /\
  match r with
  | Ok _ => exists t, file_written t x f g
  | Err e => new_dirs f g /\ ((exists o, e = EOs o) \/ e = EValue "embedded null byte")
  end.
Proof.
  intros cwd p x f g r K H E. destruct (save_safe _ _ _ _ _ _ K H E) as (K' & T & S). split; auto. destruct r as [u | e].
  - exact (proj2 S).
  - split; auto. destruct e; cbn [tame] in T; try tauto; eauto. subst. auto.
Qed.

(** For a path of plain names: exactly when, and to what effect *)
Lemma above_way : forall b cwd l q f, fs_ok f -> f cwd = Some Dir -> is_file f q -> above q (place_of b cwd l) ->
  exists a c, l = (a ++ c)%list /\ c <> [] /\ q = place_of b cwd a.
Proof.
  intros b cwd l q f K H (x & Q) (r & N & E). unfold place_of in E. set (st := if b then [] else cwd) in *.
  assert (St : f st = Some Dir) by (unfold st; destruct b; [apply K | auto]).
  destruct (app_eq_app _ _ _ _ E) as (m & [(E1 & E2) | (E1 & E2)]).
  - destruct m as [ | y m].
    + exists [], l. rewrite app_nil_r in E1. cbn [app] in E2. subst r. repeat split; auto. unfold place_of. rewrite app_nil_r. auto.
    + assert (X : f q = Some Dir) by (eapply above_dir; [exact K | rewrite <- E1, St; discriminate | discriminate]). congruence.
  - exists m, r. repeat split; auto.
Qed.
Lemma way_above : forall b cwd l a c, l = (a ++ c)%list -> c <> [] -> above (place_of b cwd a) (place_of b cwd l).
Proof. intros b cwd l a c -> N. exists c. split; auto. unfold place_of. apply app_assoc. Qed.
Theorem save_plain : forall b cwd l n x f, Forall plain_name l -> plain_name n -> fs_ok f -> f cwd = Some Dir -> b = true \/ l <> [] ->
  let p := path_to b (l ++ [n])%list in
  let parent := place_of b cwd l in
  let t := place_of b cwd (l ++ [n])%list in
  (is_file f parent -> save cwd p x f = (f, Err (EOs FileExists))) /\
  ((exists q, above q parent /\ is_file f q) -> save cwd p x f = (f, Err (EOs NotADirectory))) /\
  (f t = Some Dir -> save cwd p x f = (f, Err (EOs IsADirectory))) /\
  ((forall q, above q t -> ~ is_file f q) -> f t <> Some Dir ->
     exists g, save cwd p x f = (g, Ok tt) /\ g t = Some (File x) /\ (forall q, above q t -> g q = Some Dir) /\
       (forall q, q <> t -> ~ above q t -> g q = f q)).
Proof.
  intros b cwd l n x f F Hn K H B p parent t. destruct (save_path b cwd l n x f F Hn K H B) as (P1 & P2 & P3 & P4). fold p parent t in P1, P2, P3, P4.
  split; [exact P1 | ]. split; [ | split; [exact P3 | ]].
  - intros (q & A & Q). apply P2. destruct (above_way b cwd l q f K H Q A) as (a & c & E & N & ->). eauto.
  - intros Q D. destruct P4 as (g & E & T & W & O); auto.
    { intros a c E. apply Q. apply (way_above _ _ _ a (c ++ [n])%list); [subst l; rewrite app_assoc; auto | ]. intros X. apply app_eq_nil in X as [_ X]. discriminate. }
    exists g. split; auto. split; auto.
    assert (Kg : fs_ok g) by (eapply (save_effect cwd p x f g (Ok tt)); eauto).
    split.
    + intros q (r & N & Er). apply (above_dir g r q Kg); auto. rewrite <- Er, T. discriminate.
    + intros q Nq Na. apply O; auto. intros (a & c & El & Eq). apply Na. subst q.
      replace (place_of b cwd [] ++ a)%list with (place_of b cwd a) by (unfold place_of; rewrite app_nil_r; auto).
      apply (way_above _ _ _ a (c ++ [n])%list); [subst l; rewrite app_assoc; auto | ]. intros X. apply app_eq_nil in X as [_ X]. discriminate.
Qed.

(** The graph *)
Lemma graph_value_good : forall g o, ggood g -> graph_to_json g = Ok o -> json_value (graph_value o).
Proof.
  intros g o G E. destruct (graph_json_good g o G E) as (A & B & C). constructor.
  - cbn. repeat constructor; intros X; repeat (destruct X as [X | X]; try discriminate); auto.
  - intros k v [X | [X | [X | []]]]; injection X as <- <-; constructor; auto.
Qed.
Theorem graph_text_read : forall e t, used e -> graph_text (e_graph e) = Ok t ->
  exists o, graph_to_json (e_graph e) = Ok o /\ json_loads t = Ok (saved_graph o).
Proof.
  intros e t U E. unfold graph_text in E. destruct (graph_to_json (e_graph e)) as [o | ] eqn:X; [ | discriminate]. cbn [bind] in E. injection E as <-.
  exists o. split; auto. change (saved_graph o) with (graph_value o). apply loads_dumps; auto. eapply graph_value_good; [ | exact X]. apply (eg_graph e). apply used_good. auto.
Qed.

(** Reading a file *)
Theorem load_file_iff : forall cwd p f v, load_file cwd p f = Ok v <-> exists t, read_file cwd p f = Ok t /\ json_text t v.
Proof.
  intros cwd p f v. unfold load_file. destruct (read_file cwd p f) as [t | e]; cbn [bind].
  - split; [intros E; apply loads_iff in E; eauto | intros (t' & E & T)]. injection E as <-. apply loads_iff. auto.
  - split; [discriminate | intros (t & X & _); discriminate].
Qed.

(** Reading a plain path *)
Theorem read_plain : forall b cwd l n f, Forall plain_name l -> plain_name n -> fs_ok f -> f cwd = Some Dir ->
  let p := path_to b (l ++ [n])%list in
  let t := place_of b cwd (l ++ [n])%list in
  (forall x, f t = Some (File x) -> read_file cwd p f = Ok x) /\
  (f t = Some Dir -> read_file cwd p f = Err (EOs IsADirectory)) /\
  ((exists q, above q t /\ is_file f q) -> read_file cwd p f = Err (EOs NotADirectory)) /\
  (f t = None -> (forall q, above q t -> ~ is_file f q) -> read_file cwd p f = Err (EOs FileNotFound)).
Proof.
  intros b cwd l n f F Hn K H p t.
  assert (St : f (place_of b cwd []) = Some Dir) by (unfold place_of; rewrite app_nil_r; destruct b; [apply K | auto]).
  assert (Ap : forall l', place_of b cwd l' = (place_of b cwd [] ++ l')%list) by (intros; unfold place_of; rewrite app_nil_r; reflexivity).
  assert (Et : t = (place_of b cwd l ++ [n])%list) by (unfold t; rewrite Ap, app_assoc, <- Ap; auto).
  assert (F' : Forall plain_name (l ++ [n])%list) by (apply Forall_app; auto).
  assert (N' : (l ++ [n])%list <> []) by (intros X; apply app_eq_nil in X as [_ X]; discriminate).
  pose proof (stat_path b cwd _ f N' F' K H) as S. fold t p in S. unfold read_file.
  split; [intros x E; rewrite E in S; rewrite S; reflexivity | ]. split; [intros E; rewrite E in S; rewrite S; reflexivity | ].
  pose proof (walk_plain f l _ K St F) as W. rewrite <- Ap in W. clear S.
  assert (Rp : os_stat cwd p f = let! d := walk f (place_of b cwd []) l in match f (d ++ [n])%list with Some x => Ok x | None => Err (EOs FileNotFound) end).
  { unfold os_stat, p. rewrite resolve_path by auto. destruct (walk f _ l); cbn [bind]; auto. destruct (f (_ ++ [n])%list) as [[ | x] | ]; reflexivity. }
  split.
  - intros (q & A & Q). destruct (above_way b cwd (l ++ [n])%list q f K H Q A) as (a & c & E & C & ->).
    destruct c as [ | y c _] using rev_ind; [congruence | ]. rewrite app_assoc in E. apply app_inj_tail in E as [E ->].
    rewrite Rp. assert (D : f (place_of b cwd l) <> Some Dir).
    { intros D. destruct c as [ | z c]; [rewrite app_nil_r in E; subst; destruct Q as (x & Q); congruence | ].
      subst l. rewrite Ap, app_assoc, <- Ap in D. assert (X : f (place_of b cwd a) = Some Dir) by (eapply above_dir; [auto | rewrite D; discriminate | discriminate]).
      destruct Q as (x & Q). congruence. }
    assert (W' : walk f (place_of b cwd []) l = Err (EOs NotADirectory)).
    { destruct (f (place_of b cwd l)) as [[ | x] | ]; [congruence | | ]; (destruct W as [(W & _) | (_ & W)]; auto; exfalso; apply (W a c E); rewrite <- Ap; auto). }
    rewrite W'. reflexivity.
  - intros E Q. rewrite Rp. destruct (f (place_of b cwd l)) as [[ | x] | ] eqn:El.
    + rewrite W. cbn [bind]. rewrite <- Et, E. reflexivity.
    + exfalso. apply (Q (place_of b cwd l)); [ | exists x; auto]. rewrite Et. exists [n]. split; [discriminate | auto].
    + destruct W as [(W & a & c & Ea & X) | (W & _)]; rewrite W; [ | reflexivity]. exfalso. rewrite <- Ap in X. apply (Q _) in X; auto.
      subst l. rewrite Et. exists (c ++ [n])%list. split; [intros Y; apply app_eq_nil in Y as [_ Y]; discriminate | ]. rewrite Ap, (Ap a). rewrite <- !app_assoc. auto.
Qed.

(** What is written is ASCII, so that it does not matter how the file is encoded. *)
Lemma digit_ascii : forall l, Forall digit l -> Forall is_ascii l.
Proof. intros l H. eapply Forall_impl; [ | exact H]. unfold digit, is_ascii. intros. lia. Qed.
Ltac asc := unfold is_ascii; vm_compute; reflexivity.
Lemma number_ascii : forall t v, number_text t v -> Forall is_ascii t.
Proof.
  assert (I : forall i, int_digits i -> Forall is_ascii i).
  { intros i H. destruct H; [constructor; [asc | constructor] | apply digit_ascii; constructor; auto]. }
  assert (E : forall e, In e ["e"; "E"]%char -> is_ascii e). { intros e [<- | [<- | []]]; asc. }
  assert (U : forall neg t v, unsigned_text neg t v -> Forall is_ascii t).
  { intros neg t v H. destruct H as [neg i D | neg i p ds x e D P X _]; [apply I; auto | ]. apply Forall_app. split; [apply I; auto | ]. apply Forall_app. split.
    - destruct P; [constructor | constructor; [asc | apply digit_ascii; auto]].
    - destruct X; [constructor | | | ]; (constructor; [apply E; auto | ]); try (constructor; [asc | ]); apply digit_ascii; auto. }
  intros t v [t' v' H | t' v' H]; [eapply U; eauto | constructor; [asc | eapply U; eauto]].
Qed.
Lemma hex_digit_ascii : forall n, (n < 16)%N -> is_ascii (hex_digit n).
Proof. intros n H. unfold is_ascii, hex_digit. destruct (N.ltb_spec n 10); rewrite code_of_N; lia. Qed.
Lemma hex_escape_ascii : forall n, (n < 65536)%N -> Forall is_ascii (hex_escape n).
Proof. intros n H. unfold hex_escape. repeat (constructor; [asc || (apply hex_digit_ascii; zify; Z.to_euclidean_division_equations; lia) | ]). constructor. Qed.
Lemma escape_ascii : forall n, (n < 1114112)%N -> Forall is_ascii (escape n).
Proof.
  intros n H. unfold escape. repeat match goal with |- Forall _ (if N.eqb ?x ?y then _ else _) => destruct (N.eqb x y); [repeat (constructor; [asc | ]); constructor | ] end.
  destruct (in_range 32 126 n) eqn:E.
  - apply in_range_iff in E. constructor; [ | constructor]. unfold is_ascii. rewrite code_of_N; lia.
  - destruct (N.ltb_spec n 65536); [apply hex_escape_ascii; auto | ].
    apply Forall_app. split; apply hex_escape_ascii; zify; Z.to_euclidean_division_equations; lia.
Qed.
Lemma encode_string_ascii : forall s, Forall is_ascii (encode_string s).
Proof.
  intros s. constructor; [asc | ]. apply Forall_app. split; [ | constructor; [asc | constructor]].
  assert (B : forall n, In n (decode (chars s)) -> (n < 1114112)%N) by apply decode_bound. revert B.
  induction (decode (chars s)) as [ | n l IH]; intros B; cbn [flat_map]; [constructor | ]. apply Forall_app. split; [apply escape_ascii, B; cbn; auto | apply IH; intros m I; apply B; cbn; auto].
Qed.
Lemma newline_ascii : forall ind lvl, Forall is_ascii (newline ind lvl).
Proof. intros ind lvl. eapply Forall_impl; [ | apply newline_blank]. intros c H. cbn in H. destruct H as [<- | [<- | [<- | [<- | []]]]]; asc. Qed.
Lemma separator_ascii : forall ind lvl, Forall is_ascii (item_separator ind lvl).
Proof. intros ind lvl. rewrite item_separator_gap. constructor; [asc | ]. eapply Forall_impl; [ | apply gap_blank]. intros c H. cbn in H. destruct H as [<- | [<- | [<- | [<- | []]]]]; asc. Qed.
Theorem encode_ascii : forall ind v, json_value v -> forall lvl, Forall is_ascii (encode ind lvl v).
Proof.
  intros ind. induction v as [ | b | z | f | s | l IH | d IH] using val_ind'; intros J lvl.
  - cbn. repeat (constructor; [asc | ]). constructor.
  - destruct b; cbn; repeat (constructor; [asc | ]); constructor.
  - cbn [encode]. eapply number_ascii, dec_Z_ok.
  - inversion J; subst. cbn [encode]. destruct f as [s | [ | ] | | s m e]; cbn [encode_float];
      try (eapply number_ascii, repr_float_ok; [auto | exact I]); cbn; repeat (constructor; [asc | ]); constructor.
  - apply encode_string_ascii.
  - inversion J as [ | | | | | l' Jl | ]; subst. destruct l as [ | x l]; [cbn; repeat (constructor; [asc | ]); constructor | ]. cbn [encode].
    constructor; [asc | ]. inversion IH as [ | ? ? Ix Il]; subst. inversion Jl as [ | ? ? Jx Jl']; subst.
    repeat (apply Forall_app; split); auto using newline_ascii; [ | constructor; [asc | constructor]].
    apply Forall_flat_map. apply Forall_forall. intros y Hy. rewrite Forall_forall in Il, Jl'. apply Forall_app. split; auto using separator_ascii.
  - inversion J as [ | | | | | | d' N Jd]; subst. destruct d as [ | [k x] d]; [cbn; repeat (constructor; [asc | ]); constructor | ]. cbn [encode].
    constructor; [asc | ]. inversion IH as [ | ? ? Ix Il]; subst.
    repeat (apply Forall_app; split); auto using newline_ascii, encode_string_ascii.
    + repeat (constructor; [asc | ]). constructor.
    + apply Ix. apply (Jd k). left. auto.
    + apply Forall_flat_map. apply Forall_forall. intros [k' y] Hy. rewrite Forall_forall in Il. cbn [fst snd].
      repeat (apply Forall_app; split); auto using separator_ascii, encode_string_ascii; [repeat (constructor; [asc | ]); constructor | ].
      apply (Il (k', y) Hy). apply (Jd k'). right. auto.
    + constructor; [asc | constructor].
Qed.

(** ** Both calls *)
Theorem export_text : forall e, used e ->
  json_text (json_dumps (Some 4%nat) (editor_json e)) (editor_json e) /\ Forall is_ascii (json_dumps (Some 4%nat) (editor_json e)).
Proof. intros e U. assert (J := used_json e U). split; [apply dumps_text | apply encode_ascii]; auto. Qed.
Theorem to_json_effect : forall cwd p e f g r, fs_ok f -> f cwd = Some Dir -> to_json cwd p e f = (g, r) ->
  fs_ok g /\
  match r with
  | Ok _ => exists t, file_written t (json_dumps (Some 4%nat) (editor_json e)) f g
  | Err x => new_dirs f g /\ ((exists o, x = EOs o) \/ x = EValue "embedded null byte")
  end.
Proof. intros cwd p e f g r. rewrite to_json_save. apply save_effect. Qed.
Theorem save_images_effect : forall cwd p e f g r, fs_ok f -> f cwd = Some Dir -> save_images_json cwd p e f = (g, r) ->
  fs_ok g /\
  match r with
  | Ok _ => exists t, file_written t (json_dumps None (saved_images (e_images e))) f g
  | Err x => new_dirs f g /\ ((exists o, x = EOs o) \/ x = EValue "embedded null byte")
  end.
Proof. intros cwd p e f g r. rewrite save_images_save. apply save_effect. Qed.
Theorem save_bare_name : forall cwd n e f, plain_name n -> to_json cwd n e f = (f, Err (EOs FileNotFound)) /\ save_images_json cwd n e f = (f, Err (EOs FileNotFound)).
Proof. intros cwd n e f H. rewrite to_json_save, save_images_save. split; apply save_bare; auto. Qed.
Theorem to_json_plain : forall b cwd l n e f, Forall plain_name l -> plain_name n -> fs_ok f -> f cwd = Some Dir -> b = true \/ l <> [] ->
  let p := path_to b (l ++ [n])%list in
  let parent := place_of b cwd l in
  let t := place_of b cwd (l ++ [n])%list in
  (is_file f parent -> to_json cwd p e f = (f, Err (EOs FileExists))) /\
  ((exists q, above q parent /\ is_file f q) -> to_json cwd p e f = (f, Err (EOs NotADirectory))) /\
  (f t = Some Dir -> to_json cwd p e f = (f, Err (EOs IsADirectory))) /\
  ((forall q, above q t -> ~ is_file f q) -> f t <> Some Dir ->
     exists g, to_json cwd p e f = (g, Ok tt) /\ g t = Some (File (json_dumps (Some 4%nat) (editor_json e))) /\
       (forall q, above q t -> g q = Some Dir) /\ (forall q, q <> t -> ~ above q t -> g q = f q)).
Proof. intros b cwd l n e f F Hn K H B. exact (save_plain b cwd l n (json_dumps (Some 4%nat) (editor_json e)) f F Hn K H B). Qed.
Theorem save_images_plain : forall b cwd l n e f, Forall plain_name l -> plain_name n -> fs_ok f -> f cwd = Some Dir -> b = true \/ l <> [] ->
  let p := path_to b (l ++ [n])%list in
  let parent := place_of b cwd l in
  let t := place_of b cwd (l ++ [n])%list in
  (is_file f parent -> save_images_json cwd p e f = (f, Err (EOs FileExists))) /\
  ((exists q, above q parent /\ is_file f q) -> save_images_json cwd p e f = (f, Err (EOs NotADirectory))) /\
  (f t = Some Dir -> save_images_json cwd p e f = (f, Err (EOs IsADirectory))) /\
  ((forall q, above q t -> ~ is_file f q) -> f t <> Some Dir ->
     exists g, save_images_json cwd p e f = (g, Ok tt) /\ g t = Some (File (json_dumps None (saved_images (e_images e)))) /\
       (forall q, above q t -> g q = Some Dir) /\ (forall q, q <> t -> ~ above q t -> g q = f q)).
Proof. intros b cwd l n e f F Hn K H B. cbv zeta. rewrite save_images_save. exact (save_plain b cwd l n (json_dumps None (saved_images (e_images e))) f F Hn K H B). Qed.
Theorem from_json_file_iff : forall cwd p f e, from_json_file cwd p f = Ok e <-> exists t v, read_file cwd p f = Ok t /\ json_text t v /\ mk_editor v = Ok e.
Proof.
  intros cwd p f e. unfold from_json_file. destruct (load_file cwd p f) as [v | x] eqn:E; cbn [bind].
  - pose proof E as E'. apply load_file_iff in E as (t & R & T). split; [intros M; exists t, v; auto | ]. intros (t' & v' & R' & T' & M).
    rewrite R in R'. injection R' as <-. rewrite (json_text_unique _ _ _ T T'). exact M.
  - split; [discriminate | ]. intros (t & v & R & T & _). assert (load_file cwd p f = Ok v) by (apply load_file_iff; eauto). congruence.
Qed.
