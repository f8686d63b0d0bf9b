(** Facts about the model of files. *)
From Verif Require Import PyBase PyFacts PyNum Json Editor JsonText Files SpecText SpecFiles TextFacts WriteFacts JsonInv.
Open Scope string_scope.

(** ** The file system *)
Lemma fset_same : forall f p x, fset p x f p = Some x.
Proof. intros f p x. unfold fset, place_eqb. destruct (list_eq_dec string_dec p p); congruence. Qed.
Lemma fset_other : forall f p x q, q <> p -> fset p x f q = f q.
Proof. intros f p x q H. unfold fset, place_eqb. destruct (list_eq_dec string_dec q p); congruence. Qed.
Lemma parent_dir : forall f d, fs_ok f -> f d = Some Dir -> f (removelast d) = Some Dir.
Proof.
  intros f d [R P] H. destruct d as [ | x d] using rev_ind; [exact R | ]. rewrite removelast_last. apply (P d x). congruence.
Qed.
Lemma walk_dir : forall f l cur d, fs_ok f -> f cur = Some Dir -> walk f cur l = Ok d -> f d = Some Dir.
Proof.
  intros f l. induction l as [ | n l IH]; intros cur d K H E; cbn [walk] in E; [congruence | ].
  destruct (String.eqb n "."); [eauto | ]. destruct (String.eqb n ".."); [eapply IH; [auto | | exact E]; apply parent_dir; auto | ].
  destruct (f (cur ++ [n])%list) as [[ | x] | ] eqn:En; try discriminate. eauto.
Qed.
Lemma resolve_dir : forall f cwd p t, fs_ok f -> f cwd = Some Dir -> resolve cwd p f = Ok t ->
  match t with Here d => f d = Some Dir | Named d _ _ => f d = Some Dir end.
Proof.
  intros f cwd p t K H E. unfold resolve in E. destruct (has_nul p); [discriminate | ]. destruct (String.eqb p ""); [discriminate | ]. cbv zeta in E.
  assert (St : f (if starts_with_slash p then [] else cwd) = Some Dir) by (destruct (starts_with_slash p); [apply K | auto]).
  destruct (rev (names p)) as [ | n l]; [injection E as <-; exact St | ].
  destruct (walk f _ (rev l)) as [d | ] eqn:W; cbn [bind] in E; [ | discriminate]. apply walk_dir in W; auto.
  destruct (String.eqb n "."); [injection E as <-; auto | ]. destruct (String.eqb n ".."); injection E as <-; auto. apply parent_dir; auto.
Qed.
Lemma fs_ok_set : forall f d n x, fs_ok f -> f d = Some Dir -> f (d ++ [n])%list <> Some Dir -> fs_ok (fset (d ++ [n])%list x f).
Proof.
  intros f d n x [R P] H N. split.
  - rewrite fset_other; auto. intros E. symmetry in E. apply app_eq_nil in E as [_ E]. discriminate.
  - intros d' n' H'. destruct (list_eq_dec string_dec d' (d ++ [n])%list) as [-> | X].
    + exfalso. rewrite fset_other in H'. { apply P in H'. auto. } intros E. apply (f_equal (@length string)) in E. rewrite !app_length in E. simpl in E. lia.
    + rewrite fset_other by auto. destruct (list_eq_dec string_dec (d' ++ [n'])%list (d ++ [n])%list) as [E | Y].
      * apply app_inj_tail in E as [-> _]. auto.
      * rewrite fset_other in H' by auto. eauto.
Qed.

(** ** New directories *)
Lemma new_dirs_refl : forall f, new_dirs f f.
Proof. intros f q. auto. Qed.
Lemma new_dirs_trans : forall f g h, new_dirs f g -> new_dirs g h -> new_dirs f h.
Proof.
  intros f g h H K q. destruct (H q) as [E | [E1 E2]]; destruct (K q) as [E' | [E1' E2']]; try rewrite E in *; auto; try congruence.
  right. split; auto. congruence.
Qed.
Lemma new_dirs_cwd : forall f g d, new_dirs f g -> f d = Some Dir -> g d = Some Dir.
Proof. intros f g d H K. destruct (H d) as [E | [E _]]; congruence. Qed.
Definition tame (r : res unit) : Prop := match r with Ok _ => True | Err (EOs _) => True | Err (EValue w) => w = "embedded null byte" | _ => False end.
Lemma walk_tame : forall f l cur e, walk f cur l = Err e -> exists x, e = EOs x.
Proof.
  intros f l. induction l as [ | n l IH]; intros cur e E; cbn [walk] in E; [discriminate | ].
  destruct (String.eqb n "."); [eauto | ]. destruct (String.eqb n ".."); [eauto | ].
  destruct (f (cur ++ [n])%list) as [[ | x] | ]; eauto; injection E as <-; eauto.
Qed.
Lemma resolve_tame : forall f cwd p e, resolve cwd p f = Err e -> tame (Err e).
Proof.
  intros f cwd p e E. unfold resolve in E. destruct (has_nul p); [injection E as <-; reflexivity | ].
  destruct (String.eqb p ""); [injection E as <-; exact I | ]. cbv zeta in E.
  destruct (rev (names p)) as [ | n l]; [discriminate | ].
  destruct (walk f _ (rev l)) as [d | e'] eqn:W; cbn [bind] in E.
  - destruct (String.eqb n "."); [discriminate | ]. destruct (String.eqb n ".."); discriminate.
  - injection E as <-. apply walk_tame in W as (x & ->). exact I.
Qed.
Lemma mkdir_ok : forall cwd p f g r, fs_ok f -> f cwd = Some Dir -> os_mkdir cwd p f = (g, r) -> fs_ok g /\ new_dirs f g /\ tame r.
Proof.
  intros cwd p f g r K H E. unfold os_mkdir in E. destruct (resolve cwd p f) as [[d | d n s] | e] eqn:Er.
  - injection E as <- <-. split; auto. split; [apply new_dirs_refl | exact I].
  - pose proof (resolve_dir f cwd p _ K H Er) as Hd. cbn iota in Hd. destruct (f (d ++ [n])%list) eqn:En.
    + injection E as <- <-. split; auto. split; [apply new_dirs_refl | exact I].
    + injection E as <- <-. split; [apply fs_ok_set; auto; congruence | ]. split; [ | exact I]. intros q.
      destruct (list_eq_dec string_dec q (d ++ [n])%list) as [-> | N]; [right; rewrite fset_same; auto | left; apply fset_other; auto].
  - injection E as <- <-. split; auto. split; [apply new_dirs_refl | ]. eapply resolve_tame; eauto.
Qed.

(** ** Splitting a path *)
Lemma cut_last_app : forall l h t, cut_last l = (h, t) -> l = (h ++ t)%list /\ existsb is_slash t = false /\ (existsb is_slash l = true -> h <> []).
Proof.
  intros l. induction l as [ | c l IH]; intros h t E; cbn [cut_last] in E.
  - injection E as <- <-. repeat split; auto. discriminate.
  - destruct (existsb is_slash (c :: l)) eqn:Ex.
    + destruct (cut_last l) as [h' t'] eqn:Ec. injection E as <- <-. destruct (IH _ _ eq_refl) as (E1 & E2 & _). repeat split; auto; try discriminate.
      simpl. congruence.
    + injection E as <- <-. repeat split; auto. congruence.
Qed.
Lemma drop_slashes_le : forall l, length (drop_slashes l) <= length l.
Proof. intros l. induction l as [ | c l IH]; simpl; auto. destruct (is_slash c); simpl; lia. Qed.
Lemma split_shorter : forall p h t, path_split p = (h, t) -> String.length h + String.length t <= String.length p.
Proof.
  intros p h t E. unfold path_split in E. destruct (cut_last (chars p)) as [a b] eqn:Ec. apply cut_last_app in Ec as (Ec & _).
  assert (L : String.length p = length a + length b). { rewrite <- chars_length, Ec, app_length. reflexivity. }
  injection E as <- <-. rewrite L. rewrite <- !chars_length, !chars_unchars. destruct (forallb is_slash a); [lia | ].
  rewrite rev_length. pose proof (drop_slashes_le (rev a)). rewrite rev_length in *. lia.
Qed.
Lemma nonempty_length : forall s, s <> "" -> 1 <= String.length s.
Proof. intros [ | c s] H; [congruence | simpl; lia]. Qed.

(** Making directories, for any name *)
Lemma makedirs_safe : forall fuel cwd p f g r, String.length p <= fuel -> fs_ok f -> f cwd = Some Dir -> makedirs fuel cwd p f = (g, r) ->
  fs_ok g /\ new_dirs f g /\ tame r.
Proof.
  intros fuel. induction fuel as [ | fuel IH]; intros cwd p f g r L K H E; cbn [makedirs] in E;
    destruct (path_split p) as [h0 t0] eqn:Es; pose proof (split_shorter _ _ _ Es) as L0;
    destruct (if String.eqb t0 "" then path_split h0 else (h0, t0)) as [h t] eqn:Es2.
  - assert (p = "") by (destruct p; [auto | simpl in L; lia]). subst p. vm_compute in Es. injection Es as <- <-. vm_compute in Es2. injection Es2 as <- <-.
    simpl in E. eapply mkdir_ok; eauto.
  - destruct ((negb (String.eqb h "") && negb (String.eqb t "") && negb (path_exists cwd h f))%bool) eqn:C; [ | eapply mkdir_ok; eauto].
    apply andb_true_iff in C as [C _]. apply andb_true_iff in C as [_ Ct]. apply negb_true_iff in Ct. apply String.eqb_neq in Ct.
    assert (L1 : String.length h <= fuel).
    { destruct (String.eqb_spec t0 "") as [-> | N].
      - apply split_shorter in Es2. apply nonempty_length in Ct. lia.
      - injection Es2 as <- <-. apply nonempty_length in N. lia. }
    destruct (makedirs fuel cwd h f) as [f1 r1] eqn:E1. destruct (IH _ _ _ _ _ L1 K H E1) as (K1 & N1 & T1).
    assert (H1 : f1 cwd = Some Dir) by (eapply new_dirs_cwd; eauto).
    assert (Go : (if String.eqb t "." then (f1, Ok tt) else os_mkdir cwd p f1) = (g, r) -> fs_ok g /\ new_dirs f g /\ tame r).
    { intros E2. destruct (String.eqb t ".").
      - injection E2 as <- <-. split; auto. split; auto. exact I.
      - destruct (mkdir_ok _ _ _ _ _ K1 H1 E2) as (K2 & N2 & T2). split; auto. split; auto. eapply new_dirs_trans; eauto. }
    destruct r1 as [u | e]; [auto | ].
    assert (St : (f1, Err e) = (g, r) -> fs_ok g /\ new_dirs f g /\ tame r).
    { intros X. injection X as <- <-. auto. }
    destruct e; auto. destruct e; auto.
Qed.
Lemma make_parent_safe : forall cwd p f g r, fs_ok f -> f cwd = Some Dir -> make_parent cwd p f = (g, r) -> fs_ok g /\ new_dirs f g /\ tame r.
Proof.
  intros cwd p f g r K H E. unfold make_parent in E. cbv zeta in E. destruct (path_isdir cwd (path_dirname p) f).
  - injection E as <- <-. split; auto. split; [apply new_dirs_refl | exact I].
  - eapply makedirs_safe; [ | | | exact E]; auto.
Qed.

(** ** Writing a file, and reading it back *)
Lemma walk_ext : forall f g l cur d, walk f cur l = Ok d -> (forall q, f q = Some Dir -> g q = Some Dir) -> walk g cur l = Ok d.
Proof.
  intros f g l. induction l as [ | n l IH]; intros cur d E H; cbn [walk] in *; auto.
  destruct (String.eqb n "."); auto. destruct (String.eqb n ".."); auto. destruct (f (cur ++ [n])%list) as [[ | x] | ] eqn:En; try discriminate.
  rewrite (H _ En). auto.
Qed.
Lemma resolve_ext : forall f g cwd p t, resolve cwd p f = Ok t -> (forall q, f q = Some Dir -> g q = Some Dir) -> resolve cwd p g = Ok t.
Proof.
  intros f g cwd p t E H. unfold resolve in *. destruct (has_nul p); auto. destruct (String.eqb p ""); auto. cbv zeta in *.
  destruct (rev (names p)) as [ | n l]; auto. destruct (walk f _ (rev l)) as [d | e'] eqn:W; cbn [bind] in E; [ | discriminate].
  rewrite (walk_ext f g _ _ _ W H). cbn [bind]. auto.
Qed.
Lemma write_safe : forall cwd p x f g r, fs_ok f -> f cwd = Some Dir -> write_file cwd p x f = (g, r) ->
  fs_ok g /\ tame r /\
  match r with
  | Ok _ => read_file cwd p g = Ok x /\ exists t, g t = Some (File x) /\ f t <> Some Dir /\ forall q, q <> t -> g q = f q
  | Err _ => g = f
  end.
Proof.
  intros cwd p x f g r K H E. unfold write_file in E. destruct (resolve cwd p f) as [[d | d n s] | e] eqn:Er.
  - injection E as <- <-. repeat split; auto; apply K.
  - pose proof (resolve_dir f cwd p _ K H Er) as Hd. cbn iota in Hd. destruct s; [injection E as <- <-; repeat split; auto; apply K | ].
    assert (W : f (d ++ [n])%list <> Some Dir -> (fset (d ++ [n])%list (File x) f, Ok tt) = (g, r) ->
      fs_ok g /\ tame r /\ match r with
        | Ok _ => read_file cwd p g = Ok x /\ exists t, g t = Some (File x) /\ f t <> Some Dir /\ forall q, q <> t -> g q = f q
        | Err _ => g = f end).
    { intros N X. injection X as <- <-. split; [apply fs_ok_set; auto | ]. split; [exact I | ]. split.
      - unfold read_file, os_stat. rewrite (resolve_ext f _ cwd p _ Er).
        + cbn [bind]. rewrite fset_same. reflexivity.
        + intros q Hq. rewrite fset_other; auto. congruence.
      - exists (d ++ [n])%list. split; [apply fset_same | ]. split; auto. intros q Hq. apply fset_other. auto. }
    destruct (f (d ++ [n])%list) as [[ | y] | ] eqn:En; [injection E as <- <-; repeat split; auto; apply K | | ]; apply W; auto; congruence.
  - injection E as <- <-. split; auto. split; auto. eapply resolve_tame; eauto.
Qed.
(** Making the parent, then writing *)
Definition save (cwd : place) (p : string) (x : list ascii) : M fs unit := do! _ := make_parent cwd p in write_file cwd p x.
Lemma save_safe : forall cwd p x f g r, fs_ok f -> f cwd = Some Dir -> save cwd p x f = (g, r) ->
  fs_ok g /\ tame r /\
  match r with
  | Ok _ => read_file cwd p g = Ok x /\ exists t, file_written t x f g
  | Err _ => new_dirs f g
  end.
Proof.
  intros cwd p x f g r K H E. unfold save, mbind in E. destruct (make_parent cwd p f) as [f1 [u | e]] eqn:E1; destruct (make_parent_safe _ _ _ _ _ K H E1) as (K1 & N1 & T1).
  - destruct (write_safe _ _ _ _ _ _ K1 (new_dirs_cwd _ _ _ N1 H) E) as (K2 & T2 & R). split; auto. split; auto. destruct r as [u' | e].
    + destruct R as (R & t & T & Nt & O). split; auto. exists t. split; auto. split.
      * intros X. apply Nt. eapply new_dirs_cwd; eauto.
      * intros q Hq. rewrite (O q Hq). apply N1.
    + subst g. auto.
  - injection E as <- <-. auto.
Qed.

(** ** Paths of plain names *)
Lemma no_slash : forall n, ~ In "/"%char (chars n) -> existsb is_slash (chars n) = false.
Proof.
  intros n H. destruct (existsb is_slash (chars n)) eqn:E; auto. apply existsb_exists in E as (c & Hc & E). unfold is_slash in E.
  apply Ascii.eqb_eq in E. subst c. tauto.
Qed.
Lemma cut_last_at : forall a b, existsb is_slash b = false -> cut_last (a ++ "/"%char :: b) = ((a ++ ["/"%char])%list, b).
Proof.
  intros a b H. induction a as [ | c a IH].
  - cbn [app]. cbn [cut_last]. change (existsb is_slash ("/"%char :: b)) with true. cbn iota. 
    replace (cut_last b) with (@nil ascii, b); auto. destruct b as [ | c b]; auto. cbn [cut_last]. rewrite H. reflexivity.
  - cbn [app]. cbn [cut_last]. replace (existsb is_slash (c :: (a ++ "/"%char :: b)%list)) with true; [rewrite IH; reflexivity | ].
    symmetry. apply existsb_exists. exists "/"%char. split; auto. right. apply in_app_iff. right. left. reflexivity.
Qed.
Lemma forallb_slash : forall s c, forallb is_slash (chars s ++ [c]) = true -> forallb is_slash (chars s) = true.
Proof. intros s c H. rewrite forallb_app in H. apply andb_true_iff in H. tauto. Qed.
(** A text that ends in a plain name *)
Definition ends_plain (s : string) : Prop := exists a c, chars s = (a ++ [c])%list /\ is_slash c = false.
Lemma split_plain : forall s n, ends_plain s -> ~ In "/"%char (chars n) -> path_split (s ++ "/" ++ n) = (s, n).
Proof.
  intros s n (a & c & Es & Ec) Hn. unfold path_split. rewrite !chars_app. change (chars "/") with ["/"%char]. cbn [app]. rewrite cut_last_at by (apply no_slash; auto).
  rewrite unchars_chars. f_equal. replace (forallb is_slash (chars s ++ ["/"%char])) with false.
  - rewrite rev_app_distr. cbn [rev app]. cbn [drop_slashes]. change (is_slash "/") with true. cbn iota. rewrite Es, rev_app_distr. cbn [rev app drop_slashes].
    rewrite Ec. cbn [rev]. rewrite rev_involutive, <- Es. apply unchars_chars.
  - symmetry. rewrite Es, !forallb_app. cbn [forallb]. rewrite Ec. rewrite andb_false_r. reflexivity.
Qed.
Lemma split_root : forall n, ~ In "/"%char (chars n) -> path_split ("/" ++ n) = ("/", n).
Proof.
  intros n Hn. unfold path_split. rewrite chars_app. change (chars "/" ++ chars n)%list with ([] ++ "/"%char :: chars n)%list. rewrite cut_last_at by (apply no_slash; auto).
  rewrite unchars_chars. reflexivity.
Qed.
Lemma split_bare : forall n, ~ In "/"%char (chars n) -> path_split n = ("", n).
Proof.
  intros n Hn. unfold path_split. replace (cut_last (chars n)) with (@nil ascii, chars n); [rewrite unchars_chars; reflexivity | ].
  apply no_slash in Hn. destruct (chars n) as [ | c l]; auto. cbn [cut_last]. rewrite Hn. reflexivity.
Qed.
Lemma plain_ends : forall n, plain_name n -> ends_plain n.
Proof.
  intros n (H & _ & _ & S & _). unfold ends_plain. destruct (exists_last (l := chars n)) as (a & c & E).
  - intros E. apply H. apply chars_inj. exact E.
  - exists a, c. split; auto. rewrite E in S. destruct (is_slash c) eqn:Ec; auto. unfold is_slash in Ec. apply Ascii.eqb_eq in Ec. subst c.
    exfalso. apply S. apply in_app_iff. right. left. reflexivity.
Qed.
Lemma app_str : forall a b c, (a ++ b) ++ c = a ++ b ++ c.
Proof. intros. apply chars_inj. rewrite !chars_app, app_assoc. reflexivity. Qed.
Lemma slashed_last : forall l n, l <> [] -> slashed (l ++ [n])%list = slashed l ++ "/" ++ n.
Proof.
  intros l n. induction l as [ | x l IH]; intros H; [congruence | ]. destruct l as [ | y l]; [reflexivity | ].
  change (slashed ((x :: y :: l) ++ [n])%list) with (x ++ "/" ++ slashed ((y :: l) ++ [n])%list). rewrite IH by discriminate.
  change (slashed (x :: y :: l)) with (x ++ "/" ++ slashed (y :: l)). rewrite !app_str. reflexivity.
Qed.
Lemma ends_after : forall a b, ends_plain b -> ends_plain (a ++ b).
Proof. intros a b (x & c & E & Ec). exists (chars a ++ x)%list, c. split; auto. rewrite chars_app, E. apply app_assoc. Qed.
Lemma slashed_ends : forall l, l <> [] -> Forall plain_name l -> ends_plain (slashed l).
Proof.
  intros l. destruct l as [ | n l] using rev_ind; intros H F; [congruence | ]. apply Forall_app in F as [_ F].
  apply Forall_cons_iff in F as [F _]. apply plain_ends in F. destruct l as [ | x l]; [exact F | ].
  rewrite slashed_last by discriminate. apply ends_after. apply ends_after. exact F.
Qed.
Lemma path_ends : forall b l, l <> [] -> Forall plain_name l -> ends_plain (path_to b l).
Proof. intros b l H F. pose proof (slashed_ends l H F). destruct b; auto. apply ends_after. auto. Qed.
Lemma split_path : forall b l n, Forall plain_name l -> plain_name n -> path_split (path_to b (l ++ [n])%list) = (path_to b l, n).
Proof.
  intros b l n F Hn. assert (S : ~ In "/"%char (chars n)) by apply Hn. destruct l as [ | x l].
  - destruct b; cbn [path_to slashed app]; [apply split_root; auto | apply split_bare; auto].
  - assert (P : path_to b ((x :: l) ++ [n])%list = path_to b (x :: l) ++ "/" ++ n).
    { unfold path_to. rewrite slashed_last by discriminate. destruct b; auto. }
    rewrite P. apply split_plain; auto. apply path_ends; auto. discriminate.
Qed.

(** The names in such a path *)
Lemma split_on_none : forall l, ~ In "/"%char l -> split_on "/" l = [l].
Proof.
  intros l H. induction l as [ | c l IH]; auto. cbn [split_on]. destruct (Ascii.eqb_spec c "/") as [-> | N].
  - exfalso. apply H. left. reflexivity.
  - rewrite IH; auto. intros X. apply H. right. auto.
Qed.
Lemma split_on_cons : forall a b, ~ In "/"%char a -> split_on "/" (a ++ "/"%char :: b) = a :: split_on "/" b.
Proof.
  intros a b H. induction a as [ | c a IH]; auto. cbn [app split_on]. destruct (Ascii.eqb_spec c "/") as [-> | N].
  - exfalso. apply H. left. reflexivity.
  - rewrite IH; auto. intros X. apply H. right. auto.
Qed.
Definition nonempty (s : string) : bool := negb (String.eqb s "").
Lemma nonempty_plain : forall n, plain_name n -> nonempty n = true.
Proof. intros n (H & _). unfold nonempty. apply negb_true_iff. apply String.eqb_neq. auto. Qed.
Lemma names_slashed : forall l, Forall plain_name l -> names (slashed l) = l.
Proof.
  intros l. induction l as [ | n l IH]; intros F; [reflexivity | ]. apply Forall_cons_iff in F as [F1 F2].
  assert (S : ~ In "/"%char (chars n)) by apply F1. destruct l as [ | x l].
  - unfold names. cbn [slashed]. rewrite split_on_none by auto. cbn [map filter]. rewrite unchars_chars. fold (nonempty n). rewrite (nonempty_plain n F1). reflexivity.
  - change (slashed (n :: x :: l)) with (n ++ "/" ++ slashed (x :: l)). unfold names in *. rewrite !chars_app. change (chars "/") with ["/"%char]. cbn [app].
    rewrite split_on_cons by auto. cbn [map filter]. rewrite unchars_chars. fold (nonempty n). rewrite (nonempty_plain n F1). f_equal. apply IH. auto.
Qed.
Lemma names_path : forall b l, Forall plain_name l -> names (path_to b l) = l.
Proof.
  intros [ | ] l F; [ | apply names_slashed; auto]. unfold path_to, names. rewrite chars_app. change (chars "/" ++ chars (slashed l))%list with ([] ++ "/"%char :: chars (slashed l))%list.
  rewrite split_on_cons by auto. cbn [map filter]. change (String.eqb (unchars []) "") with true. cbn [negb]. apply names_slashed. auto.
Qed.
Lemma slashed_nul : forall l, Forall plain_name l -> ~ In "000"%char (chars (slashed l)).
Proof.
  intros l. induction l as [ | n l IH]; intros F; [auto | ]. apply Forall_cons_iff in F as [F1 F2]. assert (S : ~ In "000"%char (chars n)) by apply F1.
  destruct l as [ | x l]; [exact S | ]. change (slashed (n :: x :: l)) with (n ++ "/" ++ slashed (x :: l)). rewrite !chars_app. intros H.
  apply in_app_iff in H as [H | H]; [tauto | ]. apply in_app_iff in H as [H | H]; [ | exact (IH F2 H)]. destruct H as [H | []]. discriminate.
Qed.
Lemma path_nul : forall b l, Forall plain_name l -> has_nul (path_to b l) = false.
Proof.
  intros b l F. unfold has_nul. destruct (existsb _ _) eqn:E; auto. exfalso. apply existsb_exists in E as (c & Hc & E). apply Ascii.eqb_eq in E. subst c.
  apply (slashed_nul l F). destruct b; auto. unfold path_to in Hc. rewrite chars_app in Hc. apply in_app_iff in Hc as [[H | []] | H]; auto. discriminate.
Qed.
Lemma plain_first : forall n l, plain_name n -> starts_with_slash (slashed (n :: l)) = false.
Proof.
  intros n l (N & _ & _ & S & _). unfold starts_with_slash.
  assert (E : exists r, chars (slashed (n :: l)) = (chars n ++ r)%list).
  { destruct l; [exists []; rewrite app_nil_r; reflexivity | ]. eexists. cbn [slashed]. apply chars_app. }
  destruct E as (r & ->). destruct (chars n) as [ | c x] eqn:Ec.
  - exfalso. apply N. apply chars_inj. exact Ec.
  - cbn [app]. apply Ascii.eqb_neq. intros ->. apply S. left. reflexivity.
Qed.
Lemma path_start : forall b l cwd, l <> [] -> Forall plain_name l -> (if starts_with_slash (path_to b l) then [] else cwd) = place_of b cwd [].
Proof.
  intros b l cwd H F. unfold place_of. rewrite app_nil_r. destruct b; [reflexivity | ]. destruct l as [ | n l]; [congruence | ].
  apply Forall_cons_iff in F as [F _]. unfold path_to. rewrite plain_first by auto. reflexivity.
Qed.
Lemma ends_no_slash : forall s, ends_plain s -> ends_with_slash s = false /\ s <> "".
Proof.
  intros s (a & c & E & Ec). unfold ends_with_slash. rewrite E, rev_app_distr. cbn [rev app]. split; [exact Ec | ].
  intros ->. apply (f_equal (@length ascii)) in E. rewrite app_length in E. simpl in E. lia.
Qed.
Lemma resolve_path : forall b cwd l n f, Forall plain_name l -> plain_name n ->
  resolve cwd (path_to b (l ++ [n])%list) f = let! d := walk f (place_of b cwd []) l in Ok (Named d n false).
Proof.
  intros b cwd l n f F Hn. assert (F' : Forall plain_name (l ++ [n])%list) by (apply Forall_app; auto).
  assert (N : (l ++ [n])%list <> []) by (intros X; apply app_eq_nil in X as [_ X]; discriminate).
  destruct (ends_no_slash _ (path_ends b _ N F')) as [E1 E2]. unfold resolve. rewrite path_nul by auto. apply String.eqb_neq in E2. rewrite E2. cbv zeta.
  rewrite names_path by auto. rewrite path_start by auto. rewrite rev_app_distr. cbn [rev app]. rewrite rev_involutive, E1.
  destruct Hn as (_ & D1 & D2 & _). apply String.eqb_neq in D1. apply String.eqb_neq in D2. rewrite D1, D2. reflexivity.
Qed.

(** Following plain names *)
Lemma above_dir : forall f r p, fs_ok f -> f (p ++ r)%list <> None -> r <> [] -> f p = Some Dir.
Proof.
  intros f r p K. induction r as [ | n r IH] using rev_ind; intros H N; [congruence | ]. rewrite app_assoc in H. apply K in H.
  destruct r as [ | x r]; [rewrite app_nil_r in H; auto | ]. apply IH; [congruence | discriminate].
Qed.
Lemma walk_plain : forall f l cur, fs_ok f -> f cur = Some Dir -> Forall plain_name l ->
  match f (cur ++ l)%list with
  | Some Dir => walk f cur l = Ok (cur ++ l)%list
  | _ => walk f cur l = Err (EOs NotADirectory) /\ (exists a b, l = (a ++ b)%list /\ is_file f (cur ++ a)%list) \/
         walk f cur l = Err (EOs FileNotFound) /\ (forall a b, l = (a ++ b)%list -> ~ is_file f (cur ++ a)%list)
  end.
Proof.
  intros f l. induction l as [ | n l IH]; intros cur K H F.
  - rewrite app_nil_r, H. reflexivity.
  - apply Forall_cons_iff in F as [F1 F2]. cbn [walk]. destruct F1 as (_ & D1 & D2 & _). apply String.eqb_neq in D1. apply String.eqb_neq in D2. rewrite D1, D2.
    assert (A : (cur ++ n :: l = (cur ++ [n]) ++ l)%list) by (rewrite <- app_assoc; reflexivity). rewrite A.
    destruct (f (cur ++ [n])%list) as [[ | x] | ] eqn:En.
    + specialize (IH (cur ++ [n])%list K En F2). assert (Sh : forall a, ((cur ++ [n]) ++ a = cur ++ n :: a)%list) by (intros; rewrite <- app_assoc; reflexivity).
      destruct (f ((cur ++ [n]) ++ l)%list) as [[ | x] | ]; auto.
      * destruct IH as [(W & a & b & E1 & E2) | (W & Q)]; [left | right]; split; auto.
        -- exists (n :: a), b. rewrite <- Sh. split; auto. simpl. congruence.
        -- intros a b E. destruct a as [ | y a]; [rewrite app_nil_r; intros (y & Ey); congruence | ]. injection E as <- E. rewrite <- Sh. eauto.
      * destruct IH as [(W & a & b & E1 & E2) | (W & Q)]; [left | right]; split; auto.
        -- exists (n :: a), b. rewrite <- Sh. split; auto. simpl. congruence.
        -- intros a b E. destruct a as [ | y a]; [rewrite app_nil_r; intros (y & Ey); congruence | ]. injection E as <- E. rewrite <- Sh. eauto.
    + assert (X : f ((cur ++ [n]) ++ l)%list <> Some Dir).
      { intros X. destruct l as [ | y l]; [rewrite app_nil_r in X; congruence | ]. assert (Y : f (cur ++ [n])%list = Some Dir) by (eapply above_dir; [auto | | ]; [rewrite X; discriminate | discriminate]). congruence. }
      assert (Y : @Err place (EOs NotADirectory) = Err (EOs NotADirectory) /\ (exists a b, (n :: l = a ++ b)%list /\ is_file f (cur ++ a)%list)).
      { split; auto. exists [n], l. split; auto. exists x. auto. }
      destruct (f ((cur ++ [n]) ++ l)%list) as [[ | z] | ]; auto. congruence.
    + assert (X : f ((cur ++ [n]) ++ l)%list = None).
      { destruct (f ((cur ++ [n]) ++ l)%list) eqn:X; auto. destruct l as [ | y l]; [rewrite app_nil_r in X; congruence | ].
        assert (Y : f (cur ++ [n])%list = Some Dir) by (eapply above_dir; [auto | | ]; [rewrite X; discriminate | discriminate]). congruence. }
      rewrite X. right. split; auto. intros a b E. destruct a as [ | y a]; [rewrite app_nil_r; intros (z & Ez); congruence | ]. injection E as <- E.
      replace (cur ++ n :: a)%list with ((cur ++ [n]) ++ a)%list by (rewrite <- app_assoc; reflexivity). intros (z & Ez).
      destruct a as [ | y a]; [rewrite app_nil_r in Ez; congruence | ].
      assert (Y : f (cur ++ [n])%list = Some Dir) by (eapply above_dir; [auto | | ]; [rewrite Ez; discriminate | discriminate]). congruence.
Qed.

(** Looking at such a path *)
Lemma stat_path : forall b cwd l f, l <> [] -> Forall plain_name l -> fs_ok f -> f cwd = Some Dir ->
  match f (place_of b cwd l) with
  | Some x => os_stat cwd (path_to b l) f = Ok x
  | None => exists e, os_stat cwd (path_to b l) f = Err e
  end.
Proof.
  intros b cwd l f N F K H. destruct l as [ | n l _] using rev_ind; [congruence | ]. apply Forall_app in F as [F1 F2]. apply Forall_cons_iff in F2 as [F2 _].
  assert (St : f (place_of b cwd []) = Some Dir) by (unfold place_of; rewrite app_nil_r; destruct b; [apply K | auto]).
  assert (Ap : forall l', place_of b cwd l' = (place_of b cwd [] ++ l')%list) by (intros; unfold place_of; rewrite app_nil_r; reflexivity).
  unfold os_stat. rewrite resolve_path by auto. pose proof (walk_plain f l _ K St F1) as W. rewrite <- Ap in W. rewrite (Ap (l ++ [n])%list), app_assoc, <- Ap.
  destruct (f (place_of b cwd l)) as [[ | x] | ] eqn:El.
  - rewrite W. cbn [bind]. destruct (f (place_of b cwd l ++ [n])%list) as [[ | x] | ]; eauto.
  - destruct (f (place_of b cwd l ++ [n])%list) eqn:En.
    + assert (X : f (place_of b cwd l) = Some Dir) by (eapply (proj2 K); rewrite En; discriminate). congruence.
    + destruct W as [(-> & _) | (-> & _)]; cbn [bind]; eauto.
  - destruct (f (place_of b cwd l ++ [n])%list) eqn:En.
    + assert (X : f (place_of b cwd l) = Some Dir) by (eapply (proj2 K); rewrite En; discriminate). congruence.
    + destruct W as [(-> & _) | (-> & _)]; cbn [bind]; eauto.
Qed.
Lemma stat_root : forall cwd f, os_stat cwd "/" f = Ok Dir.
Proof. reflexivity. Qed.
Lemma mkdir_path : forall b cwd l n f, Forall plain_name l -> plain_name n -> fs_ok f -> f cwd = Some Dir ->
  (f (place_of b cwd l) = Some Dir -> f (place_of b cwd (l ++ [n])%list) <> None -> os_mkdir cwd (path_to b (l ++ [n])%list) f = (f, Err (EOs FileExists))) /\
  (f (place_of b cwd l) = Some Dir -> f (place_of b cwd (l ++ [n])%list) = None ->
     os_mkdir cwd (path_to b (l ++ [n])%list) f = (fset (place_of b cwd (l ++ [n])%list) Dir f, Ok tt)) /\
  (is_file f (place_of b cwd l) -> os_mkdir cwd (path_to b (l ++ [n])%list) f = (f, Err (EOs NotADirectory))).
Proof.
  intros b cwd l n f F Hn K H.
  assert (St : f (place_of b cwd []) = Some Dir) by (unfold place_of; rewrite app_nil_r; destruct b; [apply K | auto]).
  assert (Ap : forall l', place_of b cwd l' = (place_of b cwd [] ++ l')%list) by (intros; unfold place_of; rewrite app_nil_r; reflexivity).
  unfold os_mkdir. rewrite resolve_path by auto. pose proof (walk_plain f l _ K St F) as W. rewrite <- Ap in W. rewrite (Ap (l ++ [n])%list), app_assoc, <- Ap.
  split; [ | split]; intros D.
  - rewrite D in W. rewrite W. cbn [bind]. destruct (f (place_of b cwd l ++ [n])%list); congruence.
  - rewrite D in W. rewrite W. cbn [bind]. intros ->. reflexivity.
  - assert (X : walk f (place_of b cwd []) l = Err (EOs NotADirectory)).
    { destruct D as (x & D). rewrite D in W. destruct W as [(-> & _) | (-> & Q)]; auto. exfalso. apply (Q l []); [rewrite app_nil_r; auto | ].
      rewrite <- Ap. exists x. exact D. }
    rewrite X. reflexivity.
Qed.

(** Making directories on the way to a plain path: [l] is not empty and is no directory yet *)
Definition on_way (start : place) (l : list string) (q : place) : Prop := exists a c, l = (a ++ c)%list /\ q = (start ++ a)%list.
Lemma makedirs_path : forall l fuel b cwd f, l <> [] -> Forall plain_name l -> fs_ok f -> f cwd = Some Dir -> f (place_of b cwd l) <> Some Dir -> length l <= fuel ->
  (is_file f (place_of b cwd l) -> makedirs fuel cwd (path_to b l) f = (f, Err (EOs FileExists))) /\
  ((exists a c, l = (a ++ c)%list /\ c <> [] /\ is_file f (place_of b cwd a)) -> makedirs fuel cwd (path_to b l) f = (f, Err (EOs NotADirectory))) /\
  ((forall a c, l = (a ++ c)%list -> ~ is_file f (place_of b cwd a)) ->
     exists g, makedirs fuel cwd (path_to b l) f = (g, Ok tt) /\ fs_ok g /\ g cwd = Some Dir /\
       (forall a c, l = (a ++ c)%list -> g (place_of b cwd a) = Some Dir) /\
       (forall q, ~ on_way (place_of b cwd []) l q -> g q = f q)).
Proof.
  intros l. induction l as [ | n l IH] using rev_ind; intros fuel b cwd f N F K H D L; [congruence | ].
  apply Forall_app in F as [F1 F2]. apply Forall_cons_iff in F2 as [Hn _]. rewrite app_length in L. cbn [length] in L.
  assert (St : f (place_of b cwd []) = Some Dir) by (unfold place_of; rewrite app_nil_r; destruct b; [apply K | auto]).
  assert (Ap : forall l', place_of b cwd l' = (place_of b cwd [] ++ l')%list) by (intros; unfold place_of; rewrite app_nil_r; reflexivity).
  assert (Ne : String.eqb n "" = false) by (apply String.eqb_neq; apply Hn).
  assert (Nd : String.eqb n "." = false) by (apply String.eqb_neq; apply Hn).
  destruct (mkdir_path b cwd l n f F1 Hn K H) as (M1 & M2 & M3).
  assert (Step : forall fuel, 1 <= fuel -> (l = [] \/ f (place_of b cwd l) <> None) -> makedirs fuel cwd (path_to b (l ++ [n])%list) f = os_mkdir cwd (path_to b (l ++ [n])%list) f).
  { intros [ | k] _ C; cbn [makedirs]; rewrite split_path by auto; rewrite Ne; cbv iota beta;
      replace (negb (String.eqb (path_to b l) "") && negb (String.eqb n "") && negb (path_exists cwd (path_to b l) f))%bool with false; auto; symmetry;
      (destruct l as [ | x l']; [destruct b; [unfold path_exists; change (path_to true []) with "/"; rewrite stat_root; cbn [negb]; rewrite ?andb_false_r; reflexivity | reflexivity] | ]);
      (destruct C as [C | C]; [discriminate | ]);
      pose proof (stat_path b cwd (x :: l') f ltac:(discriminate) F1 K H) as S; unfold path_exists;
      (destruct (f (place_of b cwd (x :: l'))); [ | congruence]); rewrite S; cbn [negb]; apply andb_false_r. }
  assert (Pd : forall m, l = [] \/ f (place_of b cwd (l ++ [m])%list) <> None -> f (place_of b cwd l) = Some Dir).
  { intros m [-> | X]; auto. apply (proj2 K _ m). unfold place_of in *. rewrite <- app_assoc. auto. }
  assert (Sp : forall a c, (l ++ [n] = a ++ c)%list -> c = [] /\ a = (l ++ [n])%list \/ exists c', c = (c' ++ [n])%list /\ l = (a ++ c')%list).
  { intros a c E. destruct c as [ | y c _] using rev_ind; [left; rewrite app_nil_r in E; auto | right]. exists c.
    rewrite app_assoc in E. apply app_inj_tail in E as [-> ->]. auto. }
  split; [ | split].
  - intros (x & Hx). assert (X : f (place_of b cwd l) = Some Dir) by (apply (Pd n); right; congruence).
    rewrite Step; [ | lia | right; congruence]. apply M1; auto. congruence.
  - intros (a & c & E & C & (x & Hx)). destruct (Sp a c E) as [(-> & _) | (c' & -> & ->)]; [congruence | ].
    assert (Ll : (a ++ c')%list <> []). { intros Y. apply app_eq_nil in Y as [-> ->]. congruence. }
    destruct c' as [ | y c'].
    + rewrite app_nil_r in *. rewrite Step; [ | lia | right; congruence]. apply M3. exists x. auto.
    + assert (Nl : f (place_of b cwd (a ++ y :: c')%list) = None).
      { destruct (f (place_of b cwd (a ++ y :: c')%list)) eqn:Q; auto. rewrite Ap, app_assoc, <- Ap in Q.
        assert (f (place_of b cwd a) = Some Dir) by (eapply above_dir; [auto | rewrite Q; discriminate | discriminate]). congruence. }
      destruct fuel as [ | fuel]; [lia | ]. cbn [makedirs]. rewrite split_path by auto. rewrite Ne. cbv iota beta.
      replace (negb (String.eqb (path_to b (a ++ y :: c')%list) "") && negb (String.eqb n "") && negb (path_exists cwd (path_to b (a ++ y :: c')%list) f))%bool with true.
      * destruct (IH fuel b cwd f Ll F1 K H ltac:(congruence) ltac:(lia)) as (_ & I2 & _). rewrite I2; auto. exists a, (y :: c'). repeat split; auto; try discriminate. exists x. auto.
      * symmetry. pose proof (stat_path b cwd _ f Ll F1 K H) as S. rewrite Nl in S. destruct S as (e & S). unfold path_exists. rewrite S, Ne.
        destruct (ends_no_slash _ (path_ends b _ Ll F1)) as [_ E2]. apply String.eqb_neq in E2. rewrite E2. reflexivity.
  - intros Q. assert (Nn : f (place_of b cwd (l ++ [n])%list) = None).
    { destruct (f (place_of b cwd (l ++ [n])%list)) as [[ | x] | ] eqn:X; auto; [congruence | ]. exfalso. apply (Q (l ++ [n])%list []); [rewrite app_nil_r; auto | exists x; auto]. }
    assert (Fin : forall f1, fs_ok f1 -> f1 cwd = Some Dir -> (forall a c, l = (a ++ c)%list -> f1 (place_of b cwd a) = Some Dir) ->
      (forall q, ~ on_way (place_of b cwd []) l q -> f1 q = f q) ->
      exists g, os_mkdir cwd (path_to b (l ++ [n])%list) f1 = (g, Ok tt) /\ fs_ok g /\ g cwd = Some Dir /\ (forall a c, (l ++ [n] = a ++ c)%list -> g (place_of b cwd a) = Some Dir) /\
        (forall q, ~ on_way (place_of b cwd []) (l ++ [n])%list q -> g q = f q)).
    { intros f1 K1 H1 A1 O1. destruct (mkdir_path b cwd l n f1 F1 Hn K1 H1) as (_ & M2' & _).
      assert (Dl : f1 (place_of b cwd l) = Some Dir) by (apply (A1 l []); rewrite app_nil_r; auto).
      assert (Nw : ~ on_way (place_of b cwd []) l (place_of b cwd (l ++ [n])%list)).
      { intros (a & c & E & X). rewrite Ap in X. apply app_inv_head in X. apply (f_equal (@length string)) in X. apply (f_equal (@length string)) in E.
        rewrite app_length in X, E. simpl in X. lia. }
      exists (fset (place_of b cwd (l ++ [n])%list) Dir f1). split; [apply M2'; auto; rewrite O1; auto | ]. split.
      - rewrite Ap, app_assoc, <- Ap. apply fs_ok_set; auto. rewrite Ap, <- app_assoc, <- Ap, O1; auto.
      - split; [unfold fset; destruct (place_eqb cwd _); auto | ]. split.
        + intros a c E. destruct (Sp a c E) as [(_ & ->) | (c' & _ & E')]; [apply fset_same | ].
          rewrite fset_other; [eapply A1; exact E' | ]. intros X. apply Nw. exists a, c'. split; auto. rewrite <- Ap. auto.
        + intros q X. rewrite fset_other.
          * apply O1. intros (a & c & E & Eq). apply X. exists a, (c ++ [n])%list. split; auto. rewrite app_assoc. congruence.
          * intros ->. apply X. exists (l ++ [n])%list, []. split; [rewrite app_nil_r; auto | apply Ap]. }
    destruct (f (place_of b cwd l)) as [[ | x] | ] eqn:El.
    + rewrite Step; [ | lia | right; congruence]. apply Fin; auto. intros a c ->. destruct c as [ | y c]; [rewrite app_nil_r in El; auto | ].
      rewrite Ap, app_assoc, <- Ap in El. eapply above_dir; [auto | rewrite El; discriminate | discriminate].
    + exfalso. apply (Q l [n]); auto. exists x. auto.
    + assert (Ll : l <> []) by (intros ->; congruence).
      destruct fuel as [ | fuel]; [lia | ]. cbn [makedirs]. rewrite split_path by auto. rewrite Ne. cbv iota beta.
      replace (negb (String.eqb (path_to b l) "") && negb (String.eqb n "") && negb (path_exists cwd (path_to b l) f))%bool with true.
      * destruct (IH fuel b cwd f Ll F1 K H ltac:(congruence) ltac:(lia)) as (_ & _ & I3).
        destruct I3 as (f1 & -> & K1 & H1 & A1 & O1). { intros a c ->. apply (Q a (c ++ [n])%list). rewrite app_assoc. auto. }
        rewrite Nd. apply Fin; auto.
      * symmetry. pose proof (stat_path b cwd _ f Ll F1 K H) as S. rewrite El in S. destruct S as (e & S). unfold path_exists. rewrite S, Ne.
        destruct (ends_no_slash _ (path_ends b _ Ll F1)) as [_ E2]. apply String.eqb_neq in E2. rewrite E2. reflexivity.
Qed.

(** ** Saving to a plain path *)
Lemma dirname_path : forall b l n, Forall plain_name l -> plain_name n -> path_dirname (path_to b (l ++ [n])%list) = path_to b l.
Proof. intros. unfold path_dirname. rewrite split_path; auto. Qed.
Lemma write_path : forall b cwd l n x f, Forall plain_name l -> plain_name n -> fs_ok f -> f cwd = Some Dir -> f (place_of b cwd l) = Some Dir ->
  write_file cwd (path_to b (l ++ [n])%list) x f =
  match f (place_of b cwd (l ++ [n])%list) with Some Dir => (f, Err (EOs IsADirectory)) | _ => (fset (place_of b cwd (l ++ [n])%list) (File x) f, Ok tt) end.
Proof.
  intros b cwd l n x f F Hn K H D.
  assert (St : f (place_of b cwd []) = Some Dir) by (unfold place_of; rewrite app_nil_r; destruct b; [apply K | auto]).
  assert (Ap : forall l', place_of b cwd l' = (place_of b cwd [] ++ l')%list) by (intros; unfold place_of; rewrite app_nil_r; reflexivity).
  unfold write_file. rewrite resolve_path by auto. pose proof (walk_plain f l _ K St F) as W. rewrite <- Ap, D in W. rewrite W. cbn [bind].
  rewrite (Ap (l ++ [n])%list), app_assoc, <- Ap. destruct (f (place_of b cwd l ++ [n])%list) as [[ | y] | ]; reflexivity.
Qed.
Lemma parent_path : forall b cwd l n f, Forall plain_name l -> plain_name n -> fs_ok f -> f cwd = Some Dir -> b = true \/ l <> [] ->
  (f (place_of b cwd l) = Some Dir -> make_parent cwd (path_to b (l ++ [n])%list) f = (f, Ok tt)) /\
  (is_file f (place_of b cwd l) -> make_parent cwd (path_to b (l ++ [n])%list) f = (f, Err (EOs FileExists))) /\
  ((exists a c, l = (a ++ c)%list /\ c <> [] /\ is_file f (place_of b cwd a)) -> make_parent cwd (path_to b (l ++ [n])%list) f = (f, Err (EOs NotADirectory))) /\
  ((forall a c, l = (a ++ c)%list -> ~ is_file f (place_of b cwd a)) -> f (place_of b cwd l) <> Some Dir ->
     exists g, make_parent cwd (path_to b (l ++ [n])%list) f = (g, Ok tt) /\ fs_ok g /\ g cwd = Some Dir /\
       (forall a c, l = (a ++ c)%list -> g (place_of b cwd a) = Some Dir) /\
       (forall q, ~ on_way (place_of b cwd []) l q -> g q = f q)).
Proof.
  intros b cwd l n f F Hn K H B. unfold make_parent. rewrite dirname_path by auto. cbv zeta.
  assert (Isd : path_isdir cwd (path_to b l) f = true <-> f (place_of b cwd l) = Some Dir).
  { unfold path_isdir. destruct l as [ | m l].
    - destruct B as [-> | B]; [ | congruence]. change (path_to true []) with "/". rewrite stat_root. unfold place_of. cbn [app]. split; auto. intros _. apply K.
    - pose proof (stat_path b cwd (m :: l) f ltac:(discriminate) F K H) as S. destruct (f (place_of b cwd (m :: l))) as [[ | x] | ].
      + rewrite S. tauto.
      + rewrite S. split; discriminate.
      + destruct S as (e & ->). split; discriminate. }
  split; [intros D; apply Isd in D; rewrite D; reflexivity | ].
  assert (Go : f (place_of b cwd l) <> Some Dir -> l <> [] /\ path_isdir cwd (path_to b l) f = false /\ length l <= String.length (path_to b l)).
  { intros D. split.
    - intros ->. apply D. unfold place_of. rewrite app_nil_r. destruct B as [-> | B]; [apply K | congruence].
    - split; [destruct (path_isdir _ _ _); auto; exfalso; apply D, Isd; auto | ].
      clear - F. assert (S : length l <= String.length (slashed l)).
      { induction l as [ | m l IH]; [simpl; lia | ]. apply Forall_cons_iff in F as [F1 F2]. specialize (IH F2). assert (N : m <> "") by apply F1. apply nonempty_length in N.
        destruct l as [ | y l]; [simpl in *; lia | ]. change (slashed (m :: y :: l)) with (m ++ "/" ++ slashed (y :: l)).
        rewrite <- chars_length, !chars_app, !app_length, !chars_length. simpl in *. lia. }
      destruct b; simpl; lia. }
  split; [ | split].
  - intros (x & D). destruct (Go ltac:(congruence)) as (L1 & L2 & L3). rewrite L2. unfold os_makedirs.
    apply (makedirs_path l _ b cwd f L1 F K H ltac:(congruence) L3). exists x. auto.
  - intros (a & c & E & C & (x & Hx)). assert (D : f (place_of b cwd l) <> Some Dir).
    { intros D. subst l. unfold place_of in *. rewrite app_assoc in D. assert (X : f ((if b then [] else cwd) ++ a)%list = Some Dir) by (eapply above_dir; [auto | rewrite D; discriminate | auto]). congruence. }
    destruct (Go D) as (L1 & L2 & L3). rewrite L2. unfold os_makedirs. apply (makedirs_path l _ b cwd f L1 F K H D L3). exists a, c. repeat split; auto. exists x. auto.
  - intros Q D. destruct (Go D) as (L1 & L2 & L3). rewrite L2. unfold os_makedirs. apply (makedirs_path l _ b cwd f L1 F K H D L3). auto.
Qed.
Lemma save_path : forall b cwd l n x f, Forall plain_name l -> plain_name n -> fs_ok f -> f cwd = Some Dir -> b = true \/ l <> [] ->
  let p := path_to b (l ++ [n])%list in
  let T := place_of b cwd (l ++ [n])%list in
  (is_file f (place_of b cwd l) -> save cwd p x f = (f, Err (EOs FileExists))) /\
  ((exists a c, l = (a ++ c)%list /\ c <> [] /\ is_file f (place_of b cwd a)) -> save cwd p x f = (f, Err (EOs NotADirectory))) /\
  (f T = Some Dir -> save cwd p x f = (f, Err (EOs IsADirectory))) /\
  ((forall a c, l = (a ++ c)%list -> ~ is_file f (place_of b cwd a)) -> f T <> Some Dir ->
     exists g, save cwd p x f = (g, Ok tt) /\ g T = Some (File x) /\
       (forall a c, l = (a ++ c)%list -> g (place_of b cwd a) = Some Dir) /\
       (forall q, q <> T -> ~ on_way (place_of b cwd []) l q -> g q = f q)).
Proof.
  intros b cwd l n x f F Hn K H B p T. destruct (parent_path b cwd l n f F Hn K H B) as (P1 & P2 & P3 & P4). fold p in P1, P2, P3, P4.
  assert (Ap : forall l', place_of b cwd l' = (place_of b cwd [] ++ l')%list) by (intros; unfold place_of; rewrite app_nil_r; reflexivity).
  unfold save, mbind. split; [intros D; rewrite (P2 D); reflexivity | ]. split; [intros D; rewrite (P3 D); reflexivity | ]. split.
  - intros D. assert (X : f (place_of b cwd l) = Some Dir). { apply (proj2 K _ n). unfold T, place_of in *. rewrite <- app_assoc. congruence. }
    rewrite (P1 X). unfold p. rewrite write_path by auto. fold T. rewrite D. reflexivity.
  - intros Q D. assert (Nt : forall a c, l = (a ++ c)%list -> place_of b cwd a <> T).
    { intros a c E X. unfold T in X. rewrite (Ap a), (Ap (l ++ [n])%list) in X. apply app_inv_head in X. apply (f_equal (@length string)) in X. apply (f_equal (@length string)) in E.
      rewrite app_length in X, E. simpl in X. lia. }
    assert (Go : forall f1, fs_ok f1 -> f1 cwd = Some Dir -> make_parent cwd p f = (f1, Ok tt) -> (forall a c, l = (a ++ c)%list -> f1 (place_of b cwd a) = Some Dir) ->
      (forall q, ~ on_way (place_of b cwd []) l q -> f1 q = f q) ->
      exists g, (let '(s', r) := make_parent cwd p f in match r with Ok _ => write_file cwd p x s' | Err e => (s', Err e) end) = (g, Ok tt) /\ g T = Some (File x) /\
       (forall a c, l = (a ++ c)%list -> g (place_of b cwd a) = Some Dir) /\
       (forall q, q <> T -> ~ on_way (place_of b cwd []) l q -> g q = f q)).
    { intros f1 K1 H1 E A O. rewrite E. unfold p. rewrite write_path; auto; [ | apply (A l []); rewrite app_nil_r; auto]. fold T. rewrite O.
      - exists (fset T (File x) f1). split; [destruct (f T) as [[ | y] | ]; auto; congruence | ]. split; [apply fset_same | ]. split.
        + intros a c Ea. rewrite fset_other; eauto.
        + intros q N W. rewrite fset_other; auto.
      - intros (a & c & Ea & X). apply (Nt a c Ea). rewrite Ap. auto. }
    destruct (f (place_of b cwd l)) as [[ | y] | ] eqn:El.
    + apply (Go f); auto. intros a c E. destruct c as [ | m c]; [rewrite app_nil_r in E; congruence | ].
      subst l. rewrite Ap, app_assoc, <- Ap in El. eapply above_dir; [auto | rewrite El; discriminate | discriminate].
    + exfalso. apply (Q l []); [rewrite app_nil_r; auto | exists y; auto].
    + destruct (P4 Q ltac:(congruence)) as (g & E & K1 & H1 & A & O). apply (Go g); auto.
Qed.
(** A bare file name *)
Lemma save_bare : forall cwd n x f, plain_name n -> save cwd n x f = (f, Err (EOs FileNotFound)).
Proof.
  intros cwd n x f Hn. unfold save, mbind, make_parent. cbv zeta. replace (path_dirname n) with ""; [reflexivity | ].
  symmetry. exact (dirname_path false [] n ltac:(constructor) Hn).
Qed.
