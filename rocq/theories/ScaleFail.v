(** Scales that cannot be computed (C152). *)
From Verif Require Import PyBase PyNum Json Classes Tags SpineGraph DrawOrder AnimData SpecTags SpecAnim SpecScale PyFacts TagFacts SkinFacts ScaleFacts.
From Coq Require Import Lia.
Open Scope string_scope.

Lemma readable_dec : forall n, (exists f, scale_in_name n = Ok f /\ readable n) \/ (exists w, scale_in_name n = Err (EValue w) /\ ~ readable n).
Proof.
  intros n. destruct (scale_in_name n) as [f | e] eqn:E.
  - left. exists f. split; [reflexivity | exists f; apply tag_scale_spec; exact E].
  - right. assert (exists w, e = EValue w) as [w ->].
    { unfold scale_in_name in E. destruct (get_tags_from_name n) as [ts | e'] eqn:G; cbn [bind] in E; [discriminate E | ]. injection E as ->.
      pose proof (get_tags_cases _ _ (find_tags_spec n)) as C. rewrite G in C. destruct (find_tags n) as [ | t [ | t2 ts]].
      - discriminate C.
      - destruct C as [(f & _ & _ & C) | (_ & w & C)]; [discriminate C | injection C as ->; eauto].
      - destruct C as (w & C). injection C as ->. eauto. }
    exists w. split; [reflexivity | intros [f H]; apply tag_scale_spec in H; congruence].
Qed.
Lemma climb_end : forall d n b x, climb d n b x -> bone_name x <> "root".
Proof. intros d n b x H. induction H; auto. Qed.
Lemma climb_det : forall d n b x y, climb d n b x -> climb d n b y -> x = y.
Proof.
  intros d n b x y H. revert y. induction H as [b Hb | n b p b' x Hb Hp Hf H IH]; intros y K; apply climb_inv in K as [_ K]; [symmetry; exact K | ].
  destruct K as (p' & b2 & E & F & K). assert (p' = p) as -> by congruence. rewrite (first_named_fun _ _ _ _ _ _ F Hf) in K. auto.
Qed.
(** A climb past its end needs a parent. *)
Lemma climb_past : forall d n b x, climb d n b x -> leads_nowhere d x "parent" -> forall m y, n < m -> ~ climb d m b y.
Proof.
  intros d n b x H N. induction H as [b Hb | n b p b' x Hb Hp Hf H IH]; intros m y L K; destruct m as [ | m]; try lia; apply climb_inv in K as (_ & p' & b2 & E & F & K).
  - exact (N _ _ E F).
  - assert (p' = p) as -> by congruence. rewrite (first_named_fun _ _ _ _ _ _ F Hf) in K. exact (IH N m y ltac:(lia) K).
Qed.
Lemma loop_up : forall d n b x, climb d n b x -> (forall i y, i < n -> climb d i b y -> readable (bone_name y)) ->
  forall fuel acc, exists acc', bone_scale_loop (n + fuel) d acc (Some b) = bone_scale_loop fuel d acc' (Some x).
Proof.
  intros d n b x H. induction H as [b Hb | n b p b' x Hb Hp Hf H IH]; intros R fuel acc; [exists acc; reflexivity | ].
  cbn [plus bone_scale_loop]. destruct (String.eqb_spec (bone_name b) "root"); [contradiction | ].
  destruct (readable_dec (bone_name b)) as [(f & E & _) | (w & _ & NR)]; [ | destruct NR; apply (R 0 b ltac:(lia)); constructor; exact Hb]. rewrite E. cbn [bind].
  rewrite Hp. pose proof Hf as Hf'. apply get_bone_spec in Hf'. rewrite Hf'. apply IH. intros i y L K. apply (R (S i) y ltac:(lia)). econstructor; eauto.
Qed.
Lemma nowhere : forall d o a, get_bone d (ostr o a) = None <-> leads_nowhere d o a.
Proof.
  intros d o a. unfold leads_nowhere. split.
  - intros E i b Hi F. rewrite Hi in E. apply get_bone_spec in F. congruence.
  - intros H. destruct (get_bone d (ostr o a)) as [b | ] eqn:E; [ | reflexivity]. destruct (ostr o a) as [i | ]; [ | discriminate E]. apply get_bone_spec in E. destruct (H _ _ eq_refl E).
Qed.

(** What the loop says, given enough rounds. *)
Lemma loop_orphan : forall d b, orphan d b -> exists m, get_bone_custom_scale_recursive d (Some b) = Err (EAttr m).
Proof.
  intros d b (n & x & C & R & N). unfold get_bone_custom_scale_recursive.
  assert (n <= length (d_bones d)) as L.
  { destruct (climb_shorten d _ _ _ C) as (m & Lm & Cm). destruct (le_lt_dec n m) as [G | G]; [lia | ]. destruct (climb_past _ _ _ _ Cm N _ _ G C). }
  replace (S (length (d_bones d))) with (n + S (length (d_bones d) - n)) by lia.
  destruct (loop_up d n b x C (fun i y H => R i y ltac:(lia)) (S (length (d_bones d) - n)) f_one) as [acc ->]. cbn [bone_scale_loop].
  destruct (String.eqb_spec (bone_name x) "root") as [E | _]; [destruct (climb_end _ _ _ _ C E) | ].
  destruct (readable_dec (bone_name x)) as [(f & E & _) | (w & _ & NR)]; [ | destruct NR; exact (R n x (le_n n) C)]. rewrite E. cbn [bind].
  apply nowhere in N. rewrite N. destruct (length (d_bones d) - n); eexists; reflexivity.
Qed.
Lemma first_bad : forall d n b x, climb d n b x -> ~ readable (bone_name x) ->
  exists m y, climb d m b y /\ m <= n /\ ~ readable (bone_name y) /\ forall i z, i < m -> climb d i b z -> readable (bone_name z).
Proof.
  intros d n b x C. induction C as [b Hb | n b p b' x Hb Hp Hf C IH]; intros NR.
  - exists 0, b. split; [constructor; exact Hb | ]. split; [lia | ]. split; [exact NR | intros; lia].
  - destruct (readable_dec (bone_name b)) as [(f & _ & E) | (w & _ & E)].
    + destruct (IH NR) as (m & y & A & B & D & F). exists (S m), y. split; [econstructor; eauto | ]. split; [lia | ]. split; [exact D | ].
      intros [ | i] z L K; apply climb_inv in K as [_ K]; [subst; exact E | ]. destruct K as (p' & b2 & E2 & F2 & K). assert (p' = p) as -> by congruence. rewrite (first_named_fun _ _ _ _ _ _ F2 Hf) in K. apply (F i); [lia | exact K].
    + exists 0, b. split; [constructor; exact Hb | ]. split; [lia | ]. split; [exact E | intros; lia].
Qed.
Lemma loop_bad : forall d b, bad_tag_above d b -> exists m, get_bone_custom_scale_recursive d (Some b) = Err (EValue m).
Proof.
  intros d b (n & x & C & NR). destruct (climb_shorten d _ _ _ C) as (n' & L & C'). destruct (first_bad _ _ _ _ C' NR) as (m & y & A & B & D & F). clear C C' NR x.
  unfold get_bone_custom_scale_recursive. replace (S (length (d_bones d))) with (m + S (length (d_bones d) - m)) by lia.
  destruct (loop_up d m b y A F (S (length (d_bones d) - m)) f_one) as [acc ->]. cbn [bone_scale_loop].
  destruct (String.eqb_spec (bone_name y) "root") as [E | _]; [destruct (climb_end _ _ _ _ A E) | ].
  destruct (readable_dec (bone_name y)) as [(f & _ & E) | (w & E & _)]; [contradiction | ]. rewrite E. eexists. reflexivity.
Qed.
Lemma loop_cases : forall d fuel acc b,
  match bone_scale_loop fuel d acc (Some b) with
  | Err (EAttr _) => orphan d b
  | Err (EValue _) => bad_tag_above d b
  | Err EDiverges | Ok _ => True
  | Err _ => False
  end.
Proof.
  intros d. induction fuel as [ | fuel IH]; intros acc b; cbn [bone_scale_loop]; (destruct (String.eqb_spec (bone_name b) "root") as [ | Hb]; [exact I | ]); [exact I | ].
  destruct (readable_dec (bone_name b)) as [(f & E & Rb) | (w & E & NR)]; rewrite E; cbn [bind]; [ | exists 0, b; split; [constructor; exact Hb | exact NR]].
  destruct (get_bone d (ostr b "parent")) as [b' | ] eqn:Eb.
  - specialize (IH (fmul acc f) b'). destruct (ostr b "parent") as [p | ] eqn:Ep; [ | discriminate Eb]. apply get_bone_spec in Eb.
    destruct (bone_scale_loop fuel d (fmul acc f) (Some b')) as [ | e]; [exact I | ]. destruct e; try exact IH.
    + destruct IH as (n & x & C & NR). exists (S n), x. split; [econstructor; eauto | exact NR].
    + destruct IH as (n & x & C & R & N). exists (S n), x. split; [econstructor; eauto | ]. split; [ | exact N].
      intros [ | i] z L K; apply climb_inv in K as [_ K]; [subst; exact Rb | ]. destruct K as (p' & b2 & E2 & F2 & K). assert (p' = p) as -> by congruence. rewrite (first_named_fun _ _ _ _ _ _ F2 Eb) in K. apply (R i); [lia | exact K].
  - apply nowhere in Eb. destruct fuel; cbn [bone_scale_loop]; (exists 0, b; split; [constructor; exact Hb | split; [ | exact Eb]]; intros i y L K; assert (i = 0) as -> by lia; apply climb_inv in K as [_ ->]; exact Rb).
Qed.

Theorem scale_attribute_error : forall d o, (exists m, get_slot_custom_scale d (Some o) = Err (EAttr m)) <->
  readable (slot_name o) /\ (leads_nowhere d o "bone" \/ exists b, bone_of d o b /\ orphan d b).
Proof.
  intros d o. unfold get_slot_custom_scale. destruct (readable_dec (slot_name o)) as [(f & E & R) | (w & E & NR)]; rewrite E; cbn [bind].
  2: { split; [intros [m H]; discriminate H | intros [H _]; contradiction]. }
  destruct (get_bone d (ostr o "bone")) as [b | ] eqn:Eb.
  - destruct (ostr o "bone") as [i | ] eqn:Ei; [ | discriminate Eb]. apply get_bone_spec in Eb. split.
    + intros [m H]. split; [exact R | ]. right. exists b. split; [exists i; auto | ]. pose proof (loop_cases d (S (length (d_bones d))) f_one b) as C. unfold get_bone_custom_scale_recursive in H.
      destruct (bone_scale_loop (S (length (d_bones d))) d f_one (Some b)) as [ | e]; cbn [bind] in H; [discriminate H | ]. injection H as ->. exact C.
    + intros [_ [H | (b' & (i' & Ei' & F) & O)]].
      * destruct (H i b Ei Eb).
      * rewrite Ei in Ei'. injection Ei' as <-. rewrite (first_named_fun _ _ _ _ _ _ F Eb) in O. destruct (loop_orphan _ _ O) as [m ->]. eexists. reflexivity.
  - split; [intros _; split; [exact R | left; apply nowhere; exact Eb] | ]. intros _. unfold get_bone_custom_scale_recursive. cbn [bone_scale_loop bind]. eexists. reflexivity.
Qed.
Theorem scale_value_error : forall d o, (exists m, get_slot_custom_scale d (Some o) = Err (EValue m)) <->
  ~ readable (slot_name o) \/ exists b, bone_of d o b /\ bad_tag_above d b.
Proof.
  intros d o. unfold get_slot_custom_scale. destruct (readable_dec (slot_name o)) as [(f & E & R) | (w & E & NR)]; rewrite E; cbn [bind].
  2: { split; [intros _; left; exact NR | intros _; eexists; reflexivity]. }
  destruct (get_bone d (ostr o "bone")) as [b | ] eqn:Eb.
  - destruct (ostr o "bone") as [i | ] eqn:Ei; [ | discriminate Eb]. apply get_bone_spec in Eb. split.
    + intros [m H]. right. exists b. split; [exists i; auto | ]. pose proof (loop_cases d (S (length (d_bones d))) f_one b) as C. unfold get_bone_custom_scale_recursive in H.
      destruct (bone_scale_loop (S (length (d_bones d))) d f_one (Some b)) as [ | e]; cbn [bind] in H; [discriminate H | ]. injection H as ->. exact C.
    + intros [H | (b' & (i' & Ei' & F) & O)]; [contradiction | ].
      rewrite Ei in Ei'. injection Ei' as <-. rewrite (first_named_fun _ _ _ _ _ _ F Eb) in O. destruct (loop_bad _ _ O) as [m ->]. eexists. reflexivity.
  - split; [unfold get_bone_custom_scale_recursive; cbn [bone_scale_loop bind]; intros [m H]; discriminate H | ]. intros [H | (b & (i & Ei & F) & _)]; [contradiction | ].
    apply nowhere in Eb. destruct (Eb _ _ Ei F).
Qed.
Theorem scale_errors : forall d s e, get_slot_custom_scale d s = Err e -> (exists m, e = EAttr m) \/ (exists m, e = EValue m) \/ e = EDiverges.
Proof.
  intros d [o | ] e H; [ | injection H as <-; eauto]. unfold get_slot_custom_scale in H. destruct (readable_dec (slot_name o)) as [(f & E & R) | (w & E & NR)]; rewrite E in H; cbn [bind] in H; [ | injection H as <-; eauto].
  destruct (get_bone d (ostr o "bone")) as [b | ]; [ | injection H as <-; eauto]. pose proof (loop_cases d (S (length (d_bones d))) f_one b) as C. unfold get_bone_custom_scale_recursive in H.
  destruct (bone_scale_loop (S (length (d_bones d))) d f_one (Some b)) as [ | e']; cbn [bind] in H; [discriminate H | ]. injection H as ->. destruct e; try contradiction; eauto.
Qed.
