(** Proofs for C140: images_references and calls that fail. *)
From Verif Require Import PyBase PyFacts Json Version Graph Classes SpineGraph DrawOrder AnimData Editor SpecAnim SpecEditor SpecFail SpecAny EditorOut EditorImages.
Open Scope string_scope.
Open Scope list_scope.

(** Calls that do not touch images_references, and calls that do only if they succeed *)
Definition keeps {A} (m : M editor A) : Prop := forall e e' r, m e = (e', r) -> e_images e' = e_images e.
Definition fewer (l l' : dict imgref) : Prop := exists keep, l' = filter (fun kv => keep (fst kv)) l.
Definition last_thing {A} (m : M editor A) : Prop := forall e e' r, m e = (e', r) ->
  fewer (e_images e) (e_images e') /\ forall x, r = Err x -> e_images e' = e_images e.
Lemma fewer_refl : forall l, fewer l l.
Proof. intros l. exists (fun _ => true). symmetry. apply filter_all. reflexivity. Qed.
Lemma fewer_trans : forall a b c, fewer a b -> fewer b c -> fewer a c.
Proof. intros a b c [f ->] [g ->]. exists (fun k => f k && g k)%bool. rewrite filter_filter. apply filter_ext. intros [k v]. reflexivity. Qed.
Lemma keeps_ret : forall A (a : A), keeps (mret a).
Proof. intros A a e e' r E. injection E as <- _. reflexivity. Qed.
Lemma keeps_lift : forall A (a : res A), keeps (mlift a).
Proof. intros A a e e' r E. injection E as <- _. reflexivity. Qed.
Lemma keeps_get : keeps mget.
Proof. intros e e' r E. injection E as <- _. reflexivity. Qed.
Lemma keeps_data : forall A (m : M anim_data A), keeps (on_data m).
Proof. intros A m e e' r E. unfold on_data in E. destruct (m (e_data e)). injection E as <- _. reflexivity. Qed.
Lemma keeps_graph : forall A (m : M sgraph A), keeps (on_graph m).
Proof. intros A m e e' r E. unfold on_graph in E. destruct (m (e_graph e)). injection E as <- _. reflexivity. Qed.
Lemma keeps_bind : forall A B (m : M editor A) (f : A -> M editor B), keeps m -> (forall a, keeps (f a)) -> keeps (mbind m f).
Proof.
  intros A B m f K F e e' r E. unfold mbind in E. destruct (m e) as [e1 [a | x]] eqn:E1; [rewrite (F _ _ _ _ E); eapply K; eauto | injection E as <- _; eapply K; eauto].
Qed.
Lemma keeps_each : forall A B (f : A -> M editor B) l, (forall a, keeps (f a)) -> keeps (mforeach f l).
Proof. intros A B f l F. induction l as [ | a l IH]; cbn [mforeach]; [apply keeps_ret | ]. apply keeps_bind; auto. intros b. apply keeps_bind; auto. intros c. apply keeps_ret. Qed.
Lemma last_keeps : forall A (m : M editor A), keeps m -> last_thing m.
Proof. intros A m K e e' r E. rewrite (K _ _ _ E). split; [apply fewer_refl | auto]. Qed.
Lemma last_bind : forall A B (m : M editor A) (f : A -> M editor B), keeps m -> (forall a, last_thing (f a)) -> last_thing (mbind m f).
Proof.
  intros A B m f K F e e' r E. unfold mbind in E. destruct (m e) as [e1 [a | x]] eqn:E1; apply K in E1; rewrite <- E1; [exact (F _ _ _ _ E) | injection E as <- <-].
  split; [apply fewer_refl | auto].
Qed.
(** Nothing fails after images_references is changed. *)
Definition works {A} (m : M editor A) : Prop := forall e, exists e' a, m e = (e', Ok a) /\ fewer (e_images e) (e_images e').
Lemma last_works : forall A (m : M editor A), works m -> last_thing m.
Proof. intros A m W e e' r E. destruct (W e) as (e1 & a & E1 & F). rewrite E1 in E. injection E as <- <-. split; [exact F | discriminate]. Qed.
Lemma last_then : forall A B (m : M editor A) (f : A -> M editor B), last_thing m -> (forall a, works (f a)) -> last_thing (mbind m f).
Proof.
  intros A B m f K F e e' r E. unfold mbind in E. destruct (m e) as [e1 [a | x]] eqn:E1; destruct (K _ _ _ E1) as [K1 K2].
  - destruct (F a e1) as (e2 & b & E2 & K3). rewrite E2 in E. injection E as <- <-. split; [eapply fewer_trans; eauto | discriminate].
  - injection E as <- <-. split; [exact K1 | ]. intros y Ey. injection Ey as <-. exact (K2 _ eq_refl).
Qed.
Lemma works_ret : forall A (a : A), works (mret a).
Proof. intros A a e. exists e, a. split; [reflexivity | apply fewer_refl]. Qed.
Lemma works_bind : forall A B (m : M editor A) (f : A -> M editor B), works m -> (forall a, works (f a)) -> works (mbind m f).
Proof.
  intros A B m f K F e. destruct (K e) as (e1 & a & E1 & K1). destruct (F a e1) as (e2 & b & E2 & K2). exists e2, b. unfold mbind. rewrite E1. split; [exact E2 | eapply fewer_trans; eauto].
Qed.
Lemma works_images : forall l, works (clean_images_references l).
Proof. intros l e. eexists _, tt. split; [reflexivity | ]. exists (fun k => negb (omem (Some k) l)). reflexivity. Qed.
Lemma works_get : works mget.
Proof. intros e. exists e, e. split; [reflexivity | apply fewer_refl]. Qed.

Ltac keeping := repeat first [apply keeps_get | apply keeps_ret | apply keeps_lift | apply keeps_data | apply keeps_graph | apply keeps_each; intros | apply keeps_bind; [ | intros]].
Lemma clean_last : forall enum, last_thing (clean_animation enum).
Proof.
  intros enum. unfold clean_animation, modify_data, ed_remove_slots, ed_remove_attachments.
  repeat first [ apply last_works, works_bind; [apply works_images | intros; apply works_ret]
               | apply last_bind; [solve [keeping] | let a := fresh "a" in intros a; try (match type of a with (_ * _)%type => destruct a end)]].
Qed.
Lemma step_last : forall op e e' r, estep e op = (e', r) -> fewer (e_images e) (e_images e') /\ forall x, r = Err x -> e_images e' = e_images e.
Proof.
  assert (Q : forall A (m : M editor A) e e' r, last_thing m -> (let '(e', r) := m e in (e', let! _ := r in Ok tt)) = (e', r) -> fewer (e_images e) (e_images e') /\ forall x, r = Err x -> e_images e' = e_images e).
  { intros A m e e' r K E. destruct (m e) as [e1 r1] eqn:E1. injection E as <- <-. destruct (K _ _ _ E1) as [K1 K2]. split; [exact K1 | ]. intros x Ex. destruct r1 as [a | y]; [discriminate | eauto]. }
  intros [enum l safe | enum l strict safe | enum | sx sy] e e' r E; cbn [estep] in E.
  - revert E. apply Q. unfold erase_skins. apply last_bind; [keeping | intros removed]. apply last_bind; [keeping | intros e1]. apply last_bind; [keeping | intros g]. apply last_bind; [keeping | intros _].
    apply last_then; [destruct safe; [apply last_keeps; keeping | apply clean_last] | ]. intros rep. apply works_bind; [apply works_images | intros; apply works_ret].
  - revert E. apply Q. unfold erase_animations. apply last_bind; [keeping | intros u].
    apply last_then; [destruct safe; [apply last_keeps; keeping | apply clean_last] | ]. intros rep. apply works_bind; [apply works_get | intros; apply works_ret].
  - revert E. apply Q. apply clean_last.
  - refine (last_keeps _ (scale_animation sx sy) _ _ _ _ E). unfold scale_animation. keeping.
Qed.
(** ** The statements *)
Theorem failed_images : forall e op e' x, estep e op = (e', Err x) -> e_images e' = e_images e.
Proof. intros e op e' x E. exact (proj2 (step_last _ _ _ _ E) _ eq_refl). Qed.
Theorem calls_images : forall e0 ops e, any_calls e0 ops e -> exists keep, e_images e = filter (fun kv => keep (fst kv)) (e_images e0).
Proof.
  intros e0 ops e H. induction H as [ | ops e op e' r H IH O E]; [apply fewer_refl | ]. eapply fewer_trans; [exact IH | apply (step_last _ _ _ _ E)].
Qed.
