(** The texts of floats, strings and values determine each other. *)
From Verif Require Import PyBase PyFacts PyNum UnicodeTables Unicode Json SpecUnicode UnicodeFacts SpecText SpecFloats FloatFacts VersionFacts TextFacts Repr SpecRepr ReprFacts WriteFacts JsonText SpineGraph StrFacts.
From Coq Require Import SpecFloat.
Open Scope string_scope.
Open Scope list_scope.

(** ** What the texts determine *)
Lemma bytes_head : forall n p, bytes_of n p -> exists a l, p = a :: l /\ (code a < 128 -> n = code a)%N.
Proof. intros n p B. destruct B; eexists _, _; (split; [reflexivity | intros; auto; lia]). Qed.
Lemma hex_number_fun : forall t n m, hex_number t n -> hex_number t m -> n = m.
Proof.
  intros t n m H. revert m. induction H as [ | t n c d H IH D]; intros m K.
  - inversion K as [ | t n c d H D E]; auto. destruct t; discriminate.
  - inversion K as [E | t' n' c' d' H' D' E]; [destruct t; discriminate | ]. apply app_inj_tail in E as [-> ->]. rewrite (IH _ H'). f_equal. unfold hex_of in *. lia.
Qed.
Lemma app_split : forall A (a b r s : list A), a ++ r = b ++ s -> length a = length b -> a = b /\ r = s.
Proof.
  intros A a. induction a as [ | x a IH]; intros [ | y b] r s E L; try discriminate; auto. injection E as -> E. injection L as L. destruct (IH _ _ _ E L) as [-> ->]. auto.
Qed.
(** The two quotes *)
Definition a_quote (q : ascii) : Prop := q = "'"%char \/ q = """"%char.
(** The character behind the backslash, and how many follow *)
Definition shape (q : ascii) (n : N) (p : list ascii) : Prop :=
  (bytes_of n p /\ n <> code q /\ n <> code "\") \/
  (exists c, p = ["\"%char; c] /\ (c = q /\ n = code q \/ c = "\"%char /\ n = code "\" \/ In (c, ascii_of_N n) named_escapes /\ (n < 256)%N)) \/
  (exists c t k, p = "\"%char :: c :: t /\ hex_number t n /\ length t = k /\ In (c, k) [("x"%char, 2%nat); ("u"%char, 4%nat); ("U"%char, 8%nat)]).
Lemma shown_shape : forall q n p, char_shown q n p -> shape q n p.
Proof.
  intros q n p H. destruct H as [ | | e c I | n t A B C D F | n t A C D F | n t A C D F | n p A B C D].
  - right. left. eexists. split; [reflexivity | auto 6].
  - right. left. eexists. split; [reflexivity | auto 6].
  - right. left. eexists. split; [reflexivity | ]. right. right. split; [unfold code; rewrite ascii_N_embedding; auto | apply code_bound].
  - right. right. exists "x"%char, t, 2%nat. repeat split; auto; cbn; auto.
  - right. right. exists "u"%char, t, 4%nat. repeat split; auto; cbn; auto.
  - right. right. exists "U"%char, t, 8%nat. repeat split; auto; cbn; auto.
  - left. auto.
Qed.
Lemma plain_not_quote : forall q n p c r, bytes_of n p -> n <> code c -> (code c < 128)%N -> p ++ r = c :: q -> False.
Proof. intros q n p c r B N L E. destruct (bytes_head _ _ B) as (a & l & -> & H). injection E as -> _. auto. Qed.
Lemma shape_prefix : forall q n p n' p' r r', a_quote q -> shape q n p -> shape q n' p' -> p ++ r = p' ++ r' -> n = n' /\ r = r'.
Proof.
  intros q n p n' p' r r' Q H K E.
  assert (Qx : q <> "\"%char /\ q <> "x"%char /\ q <> "u"%char /\ q <> "U"%char /\ q <> "t"%char /\ q <> "n"%char /\ q <> "r"%char) by (destruct Q as [-> | ->]; repeat split; discriminate).
  assert (Bs : (code "\" < 128)%N) by reflexivity.
  destruct H as [(B & N1 & N2) | [(c & -> & H) | (c & t & k & -> & X & L & I)]], K as [(B' & N1' & N2') | [(c' & -> & K) | (c' & t' & k' & -> & X' & L' & I')]].
  - pose proof (f_equal decode E) as F. rewrite (decode_char _ _ _ B), (decode_char _ _ _ B') in F. injection F as F _. subst n'.
    split; auto. rewrite <- (bytes_encode _ _ B), <- (bytes_encode _ _ B') in E. apply app_inv_head in E. auto.
  - exfalso. eapply (plain_not_quote _ n p "\"%char); eauto.
  - exfalso. eapply (plain_not_quote _ n p "\"%char); eauto.
  - exfalso. eapply (plain_not_quote _ n' p' "\"%char); eauto.
  - cbn [app] in E. injection E as -> ->. split; auto. destruct H as [[-> ->] | [[-> ->] | [H ?]]], K as [[K ->] | [[K ->] | [K ?]]]; auto; try (exfalso; subst; tauto);
      try (exfalso; cbn in *; repeat match goal with H : _ \/ _ |- _ => destruct H | H : (_, _) = (_, _) |- _ => injection H as ? ? | H : False |- _ => destruct H end; subst; try tauto; congruence).
    assert (Z : ascii_of_N n = ascii_of_N n').
    { cbn in H, K. destruct H as [H | [H | [H | []]]], K as [K | [K | [K | []]]]; injection H as Ha H; injection K as K' K; congruence. }
    apply (f_equal code) in Z. rewrite !code_byte in Z by auto. auto.
  - exfalso. cbn [app] in E. injection E as -> _. destruct H as [[-> _] | [[-> _] | [H _]]]; cbn in *; repeat match goal with H : _ \/ _ |- _ => destruct H | H : (_, _) = (_, _) |- _ => injection H as ? ? | H : False |- _ => destruct H end; subst; try tauto; congruence.
  - exfalso. eapply (plain_not_quote _ n' p' "\"%char); eauto.
  - exfalso. cbn [app] in E. injection E as <- _. destruct K as [[-> _] | [[-> _] | [H _]]]; cbn in *; repeat match goal with H : _ \/ _ |- _ => destruct H | H : (_, _) = (_, _) |- _ => injection H as ? ? | H : False |- _ => destruct H end; subst; try tauto; congruence.
  - cbn [app] in E. injection E as -> E. assert (k = k').
    { cbn in I, I'. destruct I as [I | [I | [I | []]]], I' as [I' | [I' | [I' | []]]]; congruence. }
    destruct (app_split _ _ _ _ _ E) as [-> ->]; [congruence | ]. split; auto. eapply hex_number_fun; eauto.
Qed.
Lemma parts_determined : forall q ns parts ns' parts', a_quote q -> Forall2 (char_shown q) ns parts -> Forall2 (char_shown q) ns' parts' ->
  concat parts ++ [q] = concat parts' ++ [q] -> ns = ns'.
Proof.
  intros q ns parts ns' parts' Q H. revert ns' parts'.
  assert (Qb : q <> "\"%char /\ (code q < 128)%N) by (destruct Q as [-> | ->]; split; [discriminate | reflexivity | discriminate | reflexivity]).
  assert (No : forall n p r, char_shown q n p -> [q] = p ++ r -> False).
  { intros n p r C E. destruct (shown_shape _ _ _ C) as [(B & N1 & _) | [(c & -> & _) | (c & t & k & -> & _)]].
    - symmetry in E. eapply plain_not_quote; eauto. apply Qb.
    - injection E as E _. tauto.
    - injection E as E _. tauto. }
  induction H as [ | n p ns parts C H IH]; intros ns' parts' K E.
  - destruct K as [ | n' p' ns' parts' C' K]; auto. exfalso. cbn [concat app] in E. rewrite <- app_assoc in E. eapply No; eauto.
  - destruct K as [ | n' p' ns' parts' C' K].
    + exfalso. cbn [concat app] in E. rewrite <- app_assoc in E. symmetry in E. eapply No; eauto.
    + cbn [concat] in E. rewrite <- !app_assoc in E. destruct (shape_prefix _ _ _ _ _ _ _ Q (shown_shape _ _ _ C) (shown_shape _ _ _ C') E) as [-> E']. f_equal. eapply IH; eauto.
Qed.
Theorem quoted_inj : forall s s' t, quoted s t -> quoted s' t -> s = s'.
Proof.
  intros s s' t H K. assert (St : forall ns, stands_for (chars s) ns -> stands_for (chars s') ns -> s = s').
  { intros ns A B. apply stands_decode in A, B. apply chars_inj. rewrite <- (encode_decode (chars s)), <- (encode_decode (chars s')). congruence. }
  destruct H as [s ns parts A B C | s ns parts A B B' C]; inversion K as [s0 ns' parts' A' D C' | s0 ns' parts' A' D D' C']; subst.
  - assert (ns = ns') by (eapply (parts_determined "'"%char); eauto; left; auto). subst. eauto.
  - assert (ns = ns') by (eapply (parts_determined """"%char); eauto; right; auto). subst. eauto.
Qed.
Theorem float_written : forall ind f t, is_float f -> is_finite f -> (json_dumps ind (VFloat f) = t <-> written f t).
Proof. intros ind f t V F. rewrite <- repr_written by auto. destruct f; try destruct F; reflexivity. Qed.
Theorem float_read_back : forall f t, is_float f -> is_finite f -> written f t -> json_text t (VFloat f) /\ json_loads t = Ok (VFloat f).
Proof.
  intros f t V F W. apply (float_written None) in W; auto. subst t. split; [apply dumps_text | apply loads_dumps]; constructor; auto.
Qed.
Theorem written_one : forall f t t', is_float f -> written f t -> written f t' -> t = t'.
Proof. intros f t t' V W W'. apply repr_written in W, W'; auto. congruence. Qed.
Theorem written_inj : forall f g t, is_float f -> is_float g -> written f t -> written g t -> f = g.
Proof.
  assert (Fin : forall f, {is_finite f} + {f = S754_nan \/ f = S754_infinity false \/ f = S754_infinity true}).
  { intros [s | [ | ] | | s m e]; [left; exact I | right; auto | right; auto | right; auto | left; exact I]. }
  assert (Not : forall f t, ~ is_finite f -> written f t -> exists e, json_loads t = Err e).
  { intros f t N W. destruct W; try (destruct N; exact I); eexists; vm_compute; reflexivity. }
  assert (D : forall f t, f = S754_nan \/ f = S754_infinity false \/ f = S754_infinity true -> written f t ->
    f = S754_nan /\ t = chars "nan" \/ f = S754_infinity false /\ t = chars "inf" \/ f = S754_infinity true /\ t = chars "-inf").
  { intros f t [-> | [-> | ->]] W; inversion W; auto. }
  assert (Nf : forall f, f = S754_nan \/ f = S754_infinity false \/ f = S754_infinity true -> ~ is_finite f) by (intros f [-> | [-> | ->]] H; exact H).
  intros f g t V V' W W'. destruct (Fin f) as [F | F], (Fin g) as [G | G].
  - destruct (float_read_back f t V F W) as [_ A]. destruct (float_read_back g t V' G W') as [_ B]. congruence.
  - destruct (float_read_back f t V F W) as [_ A]. destruct (Not g t (Nf _ G) W') as [e B]. congruence.
  - destruct (float_read_back g t V' G W') as [_ A]. destruct (Not f t (Nf _ F) W) as [e B]. congruence.
  - destruct (D _ _ F W) as [[-> ->] | [[-> ->] | [-> ->]]], (D _ _ G W') as [[-> E] | [[-> E] | [-> E]]]; auto; discriminate.
Qed.
Theorem said_one : forall v s s', json_value v -> said v s -> said v s' -> s = s'.
Proof. intros v s s' J H K. apply str_said in H, K; auto. congruence. Qed.
Theorem id_said : forall type v i, json_value v -> (to_graph_id type v = Ok i <-> exists s, said v s /\ i = (s ++ "_" ++ type)%string).
Proof.
  intros type v i J. change (to_graph_id type v) with (@Ok string (graph_id type (py_str v))). split.
  - intros E. injection E as <-. exists (py_str v). split; auto. apply str_said; auto.
  - intros (s & H & ->). apply str_said in H; auto. subst s. reflexivity.
Qed.
