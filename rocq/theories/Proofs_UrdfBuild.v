(** * Lemmas for Props_UrdfBuild *)

From Coq Require Import String List Bool Relations Permutation Lia Arith ZArith Reals Lra Classical.
Import ListNotations.
From Verif Require Import Scalar RInst RLemmas Model_Base Model_Vec Model_Rigid Model_Average Model_Pose Model_Urdf Model_Squash Model_UrdfBuild
  Spec_Geom Spec_Average Spec_Pose Spec_Urdf Spec_Reroot Spec_Squash Spec_Edits Spec_UrdfBuild
  Proofs_Geom Proofs_Quat Proofs_Pose Proofs_Urdf Proofs_Walk Proofs_Reroot Proofs_Squash Proofs_Edits.
From Verif Require Model_Builder.
Import Model_Builder (JointType (..), Config (..), BodyMass (..), bm_mass, bm_com, bm_inertia, cfg_no_static_frame, cfg_joint_name, cfg_galilean).
Local Open Scope R_scope.

(** ** A traversal that only reads the robot is an iteration *)

Section Iter.
Variable V : Type.
Variable step : V -> Joint R -> res V.
Fixpoint iter (js : list (Joint R)) (v : V) : res V :=
  match js with
  | [] => Ok v
  | j :: js' => let! v := step v j in iter js' v
  end.
Lemma iter_app : forall a b v, iter (a ++ b) v = let! v := iter a v in iter b v.
Proof.
  induction a as [|j a IH]; intros b v; cbn [app iter]; [reflexivity|].
  destruct (step v j); cbn [rbind]; try reflexivity. apply IH.
Qed.
End Iter.
Arguments iter {V}.

Definition rec_disc (v : list (Joint R)) (j : Joint R) : res (list (Joint R) * bool) := Ok (v ++ cons j nil, true).
Definition rec_fin (v : list (Joint R)) (j : Joint R) : res (list (Joint R)) := Ok v.

Lemma walk_iter : forall (d : list (elem R)) ix fuel link acc r,
  walk_joint (fun _ => d) rec_disc rec_fin fuel ix link acc = Ok r ->
  exists l, r = acc ++ l /\ forall V (step : V -> Joint R -> res V) disc v,
    (forall v j, disc v j = let! v := step v j in Ok (v, true)) ->
    walk_joint (fun _ => d) disc (fun v _ => Ok v) fuel ix link v = iter step l v.
Proof.
  intros d ix. induction fuel as [|fuel IH]; intros link acc r h; cbn [walk_joint] in h; [discriminate|].
  cbn [walk_joint]. revert acc h. generalize (children d ix link) as rg.
  induction rg as [|n rg IHr]; intros acc h.
  - injection h as <-. exists nil. rewrite app_nil_r. split; [reflexivity|]. intros. reflexivity.
  - destruct (find_joint d n) as [j|] eqn:ej; [|discriminate]. unfold rec_disc at 1 in h. cbn [rbind] in h.
    destruct (walk_joint (fun _ => d) rec_disc rec_fin fuel ix (j_child j) (acc ++ [j])) as [r1| | |] eqn:e1; cbn [rbind] in h; try discriminate.
    unfold rec_fin at 1 in h. cbn [rbind] in h. destruct (IH _ _ _ e1) as [l1 [er1 h1]]. destruct (IHr _ h) as [l2 [er2 h2]].
    exists (j :: l1 ++ l2). split.
    + rewrite er2, er1. now rewrite <- !app_assoc.
    + intros V step disc v hd. cbn [iter]. rewrite hd. destruct (step v j) as [v1| | |]; cbn [rbind]; try reflexivity.
      rewrite (h1 V step disc v1 hd), iter_app. destruct (iter step l1 v1) as [v2| | |]; cbn [rbind]; try reflexivity.
      apply (h2 V step disc v2 hd).
Qed.

Section Order.
Variable t : tree R.
Hypothesis hs : sound t.
Notation d := (t_doc t).
Notation root := (t_root t).

Lemma rec_runs : forall v h v', runs (fun _ => d) rec_disc rec_fin v h v' ->
  exists l, v' = v ++ l /\ map (@j_name R) l = discovered h /\ (forall j, In j l -> In j (joints d)) /\
    forall n b, In (Disc n b) h -> b = true.
Proof.
  intros v h v' r. induction r as [v|v n j v1 b h v' hj hn e r IH|v n j v1 h v' hj hn e r IH].
  - exists nil. rewrite app_nil_r. split; [reflexivity|]. split; [reflexivity|]. split; [intros j []|intros n b []].
  - injection e as <- <-. destruct IH as [l [e1 [e2 [e3 e4]]]]. exists (j :: l). split; [rewrite e1; now rewrite <- app_assoc|].
    split; [|split].
    + cbn. unfold discovered in e2. now rewrite hn, e2.
    + intros k [<-|hk]; [assumption|now apply e3].
    + intros m b [hm|hm]; [now injection hm|now apply (e4 m)].
  - injection e as <-. destruct IH as [l [e1 [e2 [e3 e4]]]]. exists l. split; [assumption|]. split; [assumption|]. split; [assumption|].
    intros m b [hm|hm]; [discriminate|now apply (e4 m)].
Qed.

Lemma order_exists : exists js, in_order d root js /\
  forall V (step : V -> Joint R -> res V) disc v, (forall v j, disc v j = let! v := step v j in Ok (v, true)) ->
    traverse_joints t (fun _ => d) disc (fun v _ => Ok v) v = iter step js v.
Proof.
  destruct (C46_ends_proof t (fun _ : list (Joint R) => d) rec_disc rec_fin nil hs) as [[v' e]|[h [v1 [j [_ [_ [[hf _]|[hf _]]]]]]]].
  - auto.
  - auto.
  - apply sg_refl.
  - destruct (walk_iter d (t_ix t) _ _ _ _ e) as [l [el hl]]. cbn [app] in el. subst v'. exists l. split; [|exact hl].
    destruct (C46_once_proof t (fun _ : list (Joint R) => d) rec_disc rec_fin nil l hs) as [h [hr [nd [_ [hp [hq [ho _]]]]]]]; auto; [apply sg_refl|].
    destruct (rec_runs _ _ _ hr) as [l' [e1 [e2 [e3 e4]]]]. cbn [app] in e1. subst l'.
    assert (hdisc : forall n, In n (discovered h) -> In (Disc n true) h).
    { intros n hn. unfold discovered in hn. apply in_flat_map in hn. destruct hn as [[m b|m] [hm hi]]; [|contradiction].
      destruct hi as [<-|[]]. pose proof (e4 _ _ hm) as eb. now subst b. }
    assert (hall : forall p x, path d root p x -> forall k, In k p -> In (j_name k) (discovered h)).
    { intros p x hx. induction hx as [|p k hx IH hk]; intros i hi; [contradiction|].
      apply in_app_or in hi. destruct hi as [hi|[<-|[]]]; [now apply IH|].
      apply (hp p k); [now constructor|]. intros i hi. apply hdisc. now apply IH. }
    assert (hnm : forall j, In j (joints d) -> In (j_name j) (discovered h) -> In j l).
    { intros j hj hn. rewrite <- e2 in hn. apply in_map_iff in hn. destruct hn as [k [ek hk]].
      rewrite <- (name_inj d k j (sd_doc t hs) (e3 k hk) hj ek). assumption. }
    split; [|split].
    + apply (NoDup_map_inv (@j_name R)). now rewrite e2.
    + intros j. split.
      * intros hj. destruct (hq (j_name j)) as [p [k [hk ek]]]; [rewrite <- e2; now apply in_map|].
        assert (k = j). { apply (name_inj d k j (sd_doc t hs)); [|now apply e3|assumption]. apply path_snoc_inv in hk. tauto. }
        subst k. now exists p.
      * intros [p hj]. apply hnm; [apply path_snoc_inv in hj; tauto|]. apply (hall _ _ hj). apply in_or_app. right. now left.
    + intros l1 j l2 ejs. destruct (hq (j_name j)) as [p [k [hk ek]]].
      { rewrite <- e2, ejs. apply in_map. apply in_or_app. right. now left. }
      assert (hj : In j (joints d)) by (apply e3; rewrite ejs; apply in_or_app; right; now left).
      assert (k = j). { apply (name_inj d k j (sd_doc t hs)); [|assumption|assumption]. apply path_snoc_inv in hk. tauto. }
      subst k. clear ek. pose proof hk as hk'. apply path_snoc_inv in hk'. destruct hk' as [_ [_ hk']].
      destruct p as [|k p _] using rev_ind; [left; apply path_nil_inv in hk'; now symmetry|right].
      apply path_snoc_inv in hk'. destruct hk' as [ek [hkd _]]. exists k. split; [|congruence].
      assert (hsplit : exists h1 h2, h = h1 ++ Disc (j_name j) true :: h2 /\ discovered h1 = map (@j_name R) l1).
      { rewrite ejs, map_app in e2. cbn [map] in e2. clear -e2 e4. revert l1 e2. induction h as [|[m b|m] h IH]; intros l1 e2.
        - cbn in e2. destruct l1; discriminate.
        - destruct l1 as [|x l1].
          + cbn in e2. injection e2 as <- e2. assert (b = true) by (apply (e4 (j_name j) b); now left). subst b. exists nil, h. split; reflexivity.
          + cbn in e2. injection e2 as <- e2. destruct (IH (fun n b hb => e4 n b (or_intror hb)) l1 e2) as [h1 [h2 [-> e5]]].
            exists (Disc (j_name x) b :: h1), h2. split; [reflexivity|]. cbn. unfold discovered in e5. now rewrite e5.
        - destruct (IH (fun n b hb => e4 n b (or_intror hb)) l1 e2) as [h1 [h2 [-> e5]]].
          exists (Fin m :: h1), h2. split; [reflexivity|exact e5]. }
      destruct hsplit as [h1 [h2 [eh e5]]]. destruct (ho h1 j true h2 k eh hj hkd ek) as [hd _].
      assert (hin : In (j_name k) (map (@j_name R) l1)).
      { rewrite <- e5. unfold discovered. apply in_flat_map. exists (Disc (j_name k) true). split; [assumption|now left]. }
      apply in_map_iff in hin. destruct hin as [k2 [ek2 hk2]].
      assert (k2 = k). { apply (name_inj d k2 k (sd_doc t hs)); [|assumption|assumption]. apply e3. rewrite ejs. apply in_or_app. now left. }
      now subst k2.
  - exfalso. now apply (hf (v1 ++ cons j nil, true)).
  - exfalso. now apply (hf v1).
Qed.
End Order.

(** ** Kinds of joints *)

Lemma type_str : forall s k, type_of s = Some k ->
  s = match k with revolute => "revolute" | continuous => "continuous" | prismatic => "prismatic" | fixed => "fixed" | floating => "floating" | planar => "planar" end%string.
Proof.
  intros s k. unfold type_of.
  destruct (s =? "revolute")%string eqn:e1; [apply String.eqb_eq in e1; intros h; now injection h as <-|].
  destruct (s =? "continuous")%string eqn:e2; [apply String.eqb_eq in e2; intros h; now injection h as <-|].
  destruct (s =? "prismatic")%string eqn:e3; [apply String.eqb_eq in e3; intros h; now injection h as <-|].
  destruct (s =? "fixed")%string eqn:e4; [apply String.eqb_eq in e4; intros h; now injection h as <-|].
  destruct (s =? "floating")%string eqn:e5; [apply String.eqb_eq in e5; intros h; now injection h as <-|].
  destruct (s =? "planar")%string eqn:e6; [apply String.eqb_eq in e6; intros h; now injection h as <-|].
  discriminate.
Qed.
Lemma type_fixed : forall s, type_of s = Some fixed <-> s = "fixed"%string.
Proof. intros s. split; [intros h; now apply type_str in h|intros ->; reflexivity]. Qed.

Lemma axis_eq : forall j, joint_axis j = axis_of j.
Proof. reflexivity. Qed.
Lemma unit_eq : @unit_x R _ = (1,0,0) /\ @unit_y R _ = (0,1,0) /\ @unit_z R _ = (0,0,1).
Proof. repeat split. Qed.

Lemma kind_iff : forall j k, joint_kind j = Ok k <-> kind j k.
Proof.
  intros j k. unfold joint_kind. rewrite axis_eq. destruct unit_eq as [-> [-> ->]]. split.
  - destruct (type_of (j_type j)) as [ty|] eqn:e; [|discriminate]. apply type_str in e.
    assert (ht : turning j -> (if a_eqb (axis_of j) (1,0,0) then Ok (Some Rx) else if a_eqb (axis_of j) (0,1,0) then Ok (Some Ry)
      else if a_eqb (axis_of j) (0,0,1) then Ok (Some Rz) else Throw) = Ok k -> kind j k).
    { intros ht. destruct (a_eqb (axis_of j) (1,0,0)) eqn:e1; [intros h; injection h as <-; apply a_eqb_iff in e1; now apply kind_x|].
      destruct (a_eqb (axis_of j) (0,1,0)) eqn:e2; [intros h; injection h as <-; apply a_eqb_iff in e2; now apply kind_y|].
      destruct (a_eqb (axis_of j) (0,0,1)) eqn:e3; [intros h; injection h as <-; apply a_eqb_iff in e3; now apply kind_z|discriminate]. }
    destruct ty; try discriminate.
    + apply ht. now left.
    + apply ht. now right.
    + intros h. injection h as <-. now apply kind_fixed.
    + intros h. injection h as <-. now apply kind_free.
  - assert (hx : forall u v : vec3, u <> v -> a_eqb (u : Array3d R) v = false).
    { intros u v h. destruct (a_eqb (u : Array3d R) v) eqn:e; [|reflexivity]. now apply a_eqb_iff in e. }
    intros h. inversion h as [e|ht e|ht e|ht e|e]; subst; try (rewrite e; reflexivity).
    + rewrite e. destruct ht as [-> | ->]; cbn [type_of String.eqb Ascii.eqb Bool.eqb]; rewrite (proj2 (a_eqb_iff _ _) eq_refl); reflexivity.
    + rewrite e, (hx (0,1,0) (1,0,0)), (proj2 (a_eqb_iff (0,1,0) (0,1,0)) eq_refl) by (intros q; injection q; lra). destruct ht as [-> | ->]; reflexivity.
    + rewrite e, (hx (0,0,1) (1,0,0)), (hx (0,0,1) (0,1,0)), (proj2 (a_eqb_iff (0,0,1) (0,0,1)) eq_refl) by (intros q; injection q; lra). destruct ht as [-> | ->]; reflexivity.
Qed.
Lemma kind_or : forall j : Joint R, (exists k, joint_kind j = Ok k) \/ joint_kind j = Throw.
Proof.
  intros j. unfold joint_kind. destruct (type_of (j_type j)) as [[]|]; try (now right); try (left; eexists; reflexivity);
  (destruct (a_eqb _ unit_x); [left; eexists; reflexivity|]); (destruct (a_eqb _ unit_y); [left; eexists; reflexivity|]);
  (destruct (a_eqb _ unit_z); [left; eexists; reflexivity|now right]).
Qed.
Lemma kind_none : forall j k, kind j k -> (k = None <-> j_type j = "fixed"%string).
Proof.
  intros j k h. inversion h as [e|ht e|ht e|ht e|e]; subst; split; intros q; try discriminate; try assumption; try reflexivity;
  try (destruct ht; congruence); congruence.
Qed.

(** ** Feeding a builder *)

Section Feed.
Variable B : Type.
Variable f : call R -> B -> bool * B.
Lemma feed_app : forall a b v, feed f (a ++ b) v = let! v := feed f a v in feed f b v.
Proof.
  induction a as [|c a IH]; intros b v; cbn [app feed]; [reflexivity|]. destruct (f c v) as [[] v1]; [apply IH|reflexivity].
Qed.
Lemma feed_fed : forall cs b b', feed f cs b = Ok b' <-> fed f cs b b'.
Proof.
  induction cs as [|c cs IH]; intros b b'; cbn [feed].
  - split; [intros h; injection h as <-; constructor|intros h; now inversion h].
  - destruct (f c b) as [[] b1] eqn:e.
    + rewrite IH. split; [intros h; now apply fed_cons with b1|]. intros h. inversion h as [|c' cs' x b1' b2 e' h']; subst. rewrite e in e'. now injection e' as <-.
    + split; [discriminate|]. intros h. inversion h as [|c' cs' x b1' b2 e' h']; subst. rewrite e in e'. discriminate.
Qed.
Lemma feed_or : forall cs b, (exists b', feed f cs b = Ok b') \/ feed f cs b = Throw.
Proof.
  induction cs as [|c cs IH]; intros b; cbn [feed]; [left; now eexists|]. destruct (f c b) as [[] b1]; [apply IH|now right].
Qed.
Lemma fed_app : forall a b v v', fed f (a ++ b) v v' <-> exists u, fed f a v u /\ fed f b u v'.
Proof.
  intros a b v v'. rewrite <- feed_fed, feed_app. destruct (feed f a v) as [u| | |] eqn:e; cbn [rbind].
  - rewrite feed_fed. split; [intros h; exists u; split; [now apply feed_fed|assumption]|]. intros [w [h1 h2]]. apply feed_fed in h1. rewrite e in h1. now injection h1 as <-.
  - split; [discriminate|]. intros [w [h1 _]]. apply feed_fed in h1. congruence.
  - split; [discriminate|]. intros [w [h1 _]]. apply feed_fed in h1. congruence.
  - split; [discriminate|]. intros [w [h1 _]]. apply feed_fed in h1. congruence.
Qed.
End Feed.

(** ** The calls for a robot in which a joint is fixed exactly when its child has no body *)

Definition tidy (d : list (elem R)) (root : string) : Prop :=
  forall j, attached d root j -> (j_type j = "fixed"%string <-> inertial_at d (j_child j) = None).

Definition bm (i : Inertial R) : body R := let '(m, c, x) := urdfInertialToEigen i in mkBodyMass m c x.
Lemma body_bm : forall i, body_of i (bm i).
Proof.
  intros i. pose proof (C49_eigen_proof i) as h. unfold body_of, bm. destruct (urdfInertialToEigen i) as [[m c] x]. cbn.
  destruct h as [h1 [h2 _]]. auto.
Qed.

Definition calls_of (cfg : Config) (d : list (elem R)) (j : Joint R) : list (call R) :=
  let origin := toEigenTransform (pose_from (j_origin j)) in
  match joint_kind j with
  | Ok None => Model_Builder.add_frame4 cfg (j_parent j) (j_child j) origin (j_name j)
  | Ok (Some ty) =>
      match inertial_at d (j_child j) with
      | Some i => Model_Builder.add_link6 (j_parent j) (j_child j) origin ty (bm i) (j_name j)
      | None => []
      end
  | _ => []
  end.
Definition root_calls (cfg : Config) (d : list (elem R)) (root : string) : list (call R) :=
  match inertial_at d root with
  | Some i => Model_Builder.add_link5 cfg ""%string root identity_pose FreeFlyer (bm i)
  | None => []
  end.

Lemma calls_added : forall cfg d root j k, tidy d root -> attached d root j -> kind j k -> added cfg d j (calls_of cfg d j).
Proof.
  intros cfg d root j k ht ha hk. unfold calls_of. pose proof (proj2 (kind_iff j k) hk) as e. rewrite e. destruct k as [ty|].
  - destruct (inertial_at d (j_child j)) as [i|] eqn:ei.
    + apply added_link with i; [assumption|assumption|apply body_bm|]. intros v. apply motion_pose.
    + exfalso. apply (ht j ha) in ei. apply (kind_none j _ hk) in ei. discriminate.
  - unfold Model_Builder.add_frame4. destruct (cfg_no_static_frame cfg) eqn:ec.
    + now apply added_nothing.
    + apply added_frame; [assumption|assumption|]. intros v. apply motion_pose.
Qed.
Lemma root_added : forall cfg d root, added_root cfg d root (root_calls cfg d root).
Proof.
  intros cfg d root. unfold root_calls. destruct (inertial_at d root) as [i|] eqn:e; [|now apply root_nothing].
  apply root_link with i; [assumption|apply body_bm|]. intros [[x y] z]. unfold identity_pose. unfold motion. rewrite tmat_mk. cbv [s_ofZ RScalar]. unfold of_rows, tpos.
  cbn [t_r1c4 t_r2c4 t_r3c4]. vexp. pair_eq; ring.
Qed.

Section Emit.
Variable t : tree R.
Hypothesis hs : sound t.
Variable cfg : Config.
Notation d := (t_doc t).
Notation root := (t_root t).

Definition jstep {B} (f : call R -> B -> bool * B) (b : B) (j : Joint R) : res B :=
  rmap fst (discover_joint cfg f d b j).
Lemma jstep_eq : forall B (f : call R -> B -> bool * B) b j, discover_joint cfg f d b j = let! v := jstep f b j in Ok (v, true).
Proof.
  intros B f b j. unfold jstep, discover_joint. destruct (joint_kind j) as [[ty|]| | |]; cbn [rbind rmap]; try reflexivity.
  - destruct (find_link d (j_child j)) as [l|]; [|reflexivity].
    destruct (discover_link cfg f _ _ _ _ l _ b) as [[b' x]| | |]; reflexivity.
  - destruct (feed f _ b); reflexivity.
Qed.
Lemma jstep_calls : forall B (f : call R -> B -> bool * B) b j k, attached d root j -> kind j k ->
  jstep f b j = feed f (calls_of cfg d j) b.
Proof.
  intros B f b j k ha hk. unfold jstep, discover_joint, calls_of. rewrite (proj2 (kind_iff j k) hk). cbn [rbind]. destruct k as [ty|].
  - destruct (find_at d (j_child j)) as [l [el ei]].
    { apply (wc_ends _ (sd_doc t hs)). now apply (attached_in t). }
    rewrite el, <- ei. unfold discover_link. destruct (l_inertial l) as [i|] eqn:e.
    + unfold bm. destruct (urdfInertialToEigen i) as [[m c] x]. destruct (feed f _ b); reflexivity.
    + reflexivity.
  - destruct (feed f _ b); reflexivity.
Qed.
Lemma jstep_bad : forall B (f : call R -> B -> bool * B) b j, (forall k, ~ kind j k) -> jstep f b j = Throw.
Proof.
  intros B f b j h. unfold jstep, discover_joint. destruct (kind_or j) as [[k e]|e].
  - apply kind_iff in e. now apply h in e.
  - now rewrite e.
Qed.
Lemma jstep_or : forall B (f : call R -> B -> bool * B) b j, attached d root j -> (exists b', jstep f b j = Ok b') \/ jstep f b j = Throw.
Proof.
  intros B f b j ha. destruct (kind_or j) as [[k e]|e].
  - apply kind_iff in e. rewrite (jstep_calls B f b j k ha e). apply feed_or.
  - right. unfold jstep, discover_joint. now rewrite e.
Qed.
Lemma iter_calls : forall B (f : call R -> B -> bool * B) js b, (forall j, In j js -> attached d root j) -> (forall j, In j js -> exists k, kind j k) ->
  iter (jstep f) js b = feed f (concat (map (calls_of cfg d) js)) b.
Proof.
  intros B f. induction js as [|j js IH]; intros b ha hk; cbn [iter map concat]; [reflexivity|]. rewrite feed_app.
  destruct (hk j (or_introl eq_refl)) as [k hkj]. rewrite (jstep_calls B f b j k (ha j (or_introl eq_refl)) hkj).
  destruct (feed f (calls_of cfg d j) b); cbn [rbind]; try reflexivity. apply IH; intros; [apply ha|apply hk]; now right.
Qed.
Lemma iter_bad : forall B (f : call R -> B -> bool * B) js b j, (forall j, In j js -> attached d root j) -> In j js -> (forall k, ~ kind j k) ->
  iter (jstep f) js b = Throw.
Proof.
  intros B f. induction js as [|i js IH]; intros b j ha hj hk; [contradiction|]. cbn [iter].
  destruct hj as [<-|hj]; [now rewrite jstep_bad|].
  destruct (jstep_or B f b i (ha i (or_introl eq_refl))) as [[b' e]|e]; rewrite e; [|reflexivity].
  cbn [rbind]. apply IH with j; [|assumption|assumption]. intros. apply ha. now right.
Qed.

Lemma emit_eq : forall B (f : call R -> B -> bool * B) b, emit cfg f t b =
  let! b := feed f (root_calls cfg d root) b in traverse_joints t (fun _ => d) (discover_joint cfg f d) (fun b _ => Ok b) b.
Proof.
  intros B f b. unfold emit. destruct (find_at d root) as [l [el ei]].
  { apply (sd_root t hs). reflexivity. }
  rewrite el. unfold root_calls. rewrite <- ei. unfold discover_link. destruct (l_inertial l) as [i|]; [|reflexivity].
  unfold bm. destruct (urdfInertialToEigen i) as [[m c] x]. destruct (feed f _ b); reflexivity.
Qed.

Lemma emit_calls : exists js, in_order d root js /\ forall B (f : call R -> B -> bool * B) b,
  ((forall j, In j js -> exists k, kind j k) -> emit cfg f t b = feed f (root_calls cfg d root ++ concat (map (calls_of cfg d) js)) b) /\
  (forall j, In j js -> (forall k, ~ kind j k) -> emit cfg f t b = Throw).
Proof.
  destruct (order_exists t hs) as [js [ho hi]]. exists js. split; [assumption|]. intros B f b.
  assert (ha : forall j, In j js -> attached d root j) by (intros j; apply (proj1 (proj2 ho))). split.
  - intros hk. rewrite emit_eq, feed_app. destruct (feed f (root_calls cfg d root) b) as [b1| | |]; cbn [rbind]; try reflexivity.
    rewrite (hi B (jstep f) _ _ (jstep_eq B f)). now apply iter_calls.
  - intros j hj hk. rewrite emit_eq. destruct (feed_or _ f (root_calls cfg d root) b) as [[b1 e]|e]; rewrite e; cbn [rbind]; [|reflexivity].
    rewrite (hi B (jstep f) _ _ (jstep_eq B f)). now apply iter_bad with j.
Qed.
End Emit.

(** ** The preparation of the robot *)

Lemma joints_retype : forall L d, joints (retype L d) =
  map (fun j : Joint R => if mem (j_name j) L then mkJoint (j_name j) "fixed" (j_parent j) (j_child j) (j_origin j) None (j_mimic j) else j) (joints d).
Proof.
  intros L d. induction d as [|[l|j|s] d IH]; cbn [retype map joints flat_map app]; [reflexivity|exact IH| |exact IH].
  destruct (mem (j_name j) L); cbn [app]; f_equal; exact IH.
Qed.

Lemma F2_el_sym : forall d d', Forall2 el d d' -> Forall2 el d' d.
Proof.
  intros d d' h. induction h as [|e e' d d' he h IH]; constructor; [|assumption].
  destruct e as [l|k|s], e' as [l'|k'|s']; cbn in he |- *; try contradiction; try (now symmetry).
  destruct he as [h1 [h2 [h3 h4]]]. repeat split; now symmetry.
Qed.

Lemma mm_tidy : forall (t t' : tree R) names, sound t -> makeMasslessJointsFixed t = Ok (t', names) -> tidy (t_doc t') (t_root t').
Proof.
  intros t t' names hs h. pose proof h as h'. unfold makeMasslessJointsFixed in h'.
  destruct (traverse_joints t fst (fun v _ => Ok (v, true)) mm_finish (t_doc t, [])) as [v| | |] eqn:ew; try discriminate.
  injection h' as <- <-.
  pose proof (hist_inv t hs true (@fst _ _) mm_finish (@snd _ _) (t_doc t, nil) v eq_refl eq_refl (mm_sg t) mm_step ew) as [hb hn _ _ _ _ _ _ hd _ _].
  assert (hel : Forall2 el (t_doc t) (fst v)).
  { refine (walk_el t fst (fun v _ => Ok (v, true)) mm_finish (t_doc t, nil) v hs eq_refl _ mm_el ew).
    intros u j u' b hu. injection hu as <- _. apply F2el_refl. }
  cbn [t_doc t_root] in *. intros j' [p hp]. apply path_snoc_inv in hp. destruct hp as [_ [hj' hp]].
  pose proof (bare_joints _ _ hb) as ej. rewrite joints_retype in ej. rewrite ej in hj'. apply in_map_iff in hj'. destruct hj' as [j [e hj]].
  assert (hjj : j_parent j' = j_parent j /\ j_child j' = j_child j) by (rewrite <- e; destruct (mem (j_name j) (snd v)); split; reflexivity).
  assert (ha : attached (t_doc t) (t_root t) j).
  { destruct (el_path (fst v) (t_doc t) (t_root t) p (j_parent j')) as [q hq]; [|assumption|].
    - now apply F2_el_sym.
    - exists q. rewrite (proj1 hjj) in hq. now constructor. }
  destruct (hd j ha (fun x => x)) as [h1 h2]. rewrite (proj2 hjj). rewrite <- e.
  destruct (mem (j_name j) (snd v)) eqn:em.
  - apply mem_in in em. cbn [j_type]. split; [|reflexivity]. intros _.
    destruct (hn _ em) as [_ [k [hk [hkf ek]]]]. assert (k = j). { apply (name_inj (t_doc t) k j (sd_doc t hs)); [now apply (attached_in t)|assumption|assumption]. }
    subst k. now apply (h2 eq_refl hkf).
  - assert (hnL : ~ In (j_name j) (snd v)) by (intros hi; apply mem_in in hi; congruence). split.
    + intros hf. apply h1. now apply type_fixed.
    + intros hi. destruct (classic (j_type j = "fixed"%string)) as [hf|hf]; [assumption|]. exfalso. apply hnL.
      apply (h2 eq_refl); [|assumption]. intros q. apply hf. now apply type_fixed.
Qed.

Definition edits_of (rm mc : bool) : list edit :=
  (if rm then [RmRootJoint] else []) ++ (if mc then [MakeContinuousFixed] else []) ++ [MakeMasslessFixed].
Lemma rm_fst : forall {A B} (m : res (A * B)) x, rmap fst m = Ok x -> exists y, m = Ok (x, y).
Proof. intros A B [[a b]| | |] x h; try discriminate. injection h as <-. now exists b. Qed.

Lemma prepare_inv : forall rm mc (d : list (elem R)) t, prepare rm mc d = Ok t -> exists t0 t1 t2 names,
  ctor d = Ok t0 /\ (if rm then rm_root_joint t0 else Ok t0) = Ok t1 /\
  (if mc then rmap fst (makeContinuousJointsFixed t1) else Ok t1) = Ok t2 /\ makeMasslessJointsFixed t2 = Ok (t, names) /\
  edited t0 (edits_of rm mc) t.
Proof.
  intros rm mc d t h. unfold prepare in h. destruct (ctor d) as [t0| | |]; try discriminate. cbn [rbind] in h.
  destruct (if rm then rm_root_joint t0 else Ok t0) as [t1| | |] eqn:e1; try discriminate. cbn [rbind] in h.
  destruct (if mc then rmap fst (makeContinuousJointsFixed t1) else Ok t1) as [t2| | |] eqn:e2; try discriminate. cbn [rbind] in h.
  destruct (rm_fst _ _ h) as [names e3]. exists t0, t1, t2, names. split; [reflexivity|]. split; [assumption|]. split; [assumption|]. split; [assumption|].
  unfold edits_of. rewrite app_assoc. apply edited_ok with t2; [|exact h].
  assert (h1 : edited t0 (if rm then [RmRootJoint] else []) t1).
  { destruct rm; [apply (edited_ok _ nil _ t0); [constructor|assumption]|]. injection e1 as <-. constructor. }
  destruct mc; [apply edited_ok with t1; assumption|]. injection e2 as <-. now rewrite app_nil_r.
Qed.

Lemma prepare_ok : forall rm mc (d : list (elem R)) t, prepare rm mc d = Ok t -> sound t /\ tidy (t_doc t) (t_root t).
Proof.
  intros rm mc d t h. destruct (prepare_inv rm mc d t h) as [t0 [t1 [t2 [names [h0 [h1 [h2 [h3 he]]]]]]]].
  split; [apply (C56_sound_proof d t0 _ t h0 he)|]. apply mm_tidy with t2 names; [|assumption].
  assert (hs1 : edited t0 (if rm then [RmRootJoint] else []) t1).
  { destruct rm; [apply (edited_ok _ nil _ t0); [constructor|assumption]|]. injection h1 as <-. constructor. }
  assert (hs2 : exists es, edited t0 es t2).
  { destruct mc; [eexists; exact (edited_ok _ _ MakeContinuousFixed t1 t2 hs1 h2)|]. injection h2 as <-. eexists. exact hs1. }
  destruct hs2 as [es hs2]. apply (C56_sound_proof d t0 es t2 h0 hs2).
Qed.

Lemma prepare_or : forall rm mc (d : list (elem R)), (exists t, prepare rm mc d = Ok t) \/ prepare rm mc d = Throw.
Proof.
  intros rm mc d. unfold prepare. destruct (C44_or_throws_proof d) as [[_ [t0 [e0 _]]]|[_ e]]; [|right; now rewrite e].
  rewrite e0. cbn [rbind].
  assert (s1 : (exists t1, (if rm then rm_root_joint t0 else Ok t0) = Ok t1 /\ exists es, edited t0 es t1) \/ (if rm then rm_root_joint t0 else Ok t0) = Throw).
  { destruct rm; [|left; exists t0; split; [reflexivity|]; eexists; constructor].
    destruct (C56_safe_proof d t0 nil t0 RmRootJoint e0 (edited_nil _)) as [[t1 e1]|e1]; [discriminate|discriminate| |now right].
    left. exists t1. split; [assumption|]. eexists. now apply (edited_ok _ nil RmRootJoint t0 t1 (edited_nil _)). }
  destruct s1 as [[t1 [-> [es h1]]]| ->]; [|now right]. cbn [rbind].
  assert (s2 : (exists t2, (if mc then rmap fst (makeContinuousJointsFixed t1) else Ok t1) = Ok t2 /\ exists es, edited t0 es t2) \/
    (if mc then rmap fst (makeContinuousJointsFixed t1) else Ok t1) = Throw).
  { destruct mc; [|left; exists t1; split; [reflexivity|now exists es]].
    destruct (C56_safe_proof d t0 es t1 MakeContinuousFixed e0 h1) as [[t2 e2]|e2]; [discriminate|discriminate| |now right].
    left. exists t2. split; [assumption|]. eexists. now apply (edited_ok _ es MakeContinuousFixed t1 t2 h1). }
  destruct s2 as [[t2 [-> [es2 h2]]]| ->]; [|now right]. cbn [rbind].
  destruct (C56_safe_proof d t0 es2 t2 MakeMasslessFixed e0 h2) as [[t3 e3]|e3]; [discriminate|discriminate| |now right].
  left. now exists t3.
Qed.

Lemma C57_calls_proof : forall (d : list (elem R)) cfg rm mc t, prepare rm mc d = Ok t ->
  sound t /\
  (forall j, attached (t_doc t) (t_root t) j -> (j_type j = "fixed"%string <-> inertial_at (t_doc t) (j_child j) = None)) /\
  exists js, in_order (t_doc t) (t_root t) js /\
    ((forall j, In j js -> exists k, kind j k) -> exists c0 css,
       added_root cfg (t_doc t) (t_root t) c0 /\ Forall2 (added cfg (t_doc t)) js css /\
       forall B (f : call R -> B -> bool * B) b,
         (forall t' b', buildRigidBodySystemFromUrdf cfg f d rm mc b = Ok (t', b') <-> t' = t /\ fed f (c0 ++ concat css) b b') /\
         ((forall b', ~ fed f (c0 ++ concat css) b b') -> buildRigidBodySystemFromUrdf cfg f d rm mc b = Throw)) /\
    ((exists j, In j js /\ forall k, ~ kind j k) ->
       forall B (f : call R -> B -> bool * B) b, buildRigidBodySystemFromUrdf cfg f d rm mc b = Throw).
Proof.
  intros d cfg rm mc t h. destruct (prepare_ok rm mc d t h) as [hs ht]. split; [assumption|]. split; [assumption|].
  destruct (emit_calls t hs cfg) as [js [ho he]]. exists js. split; [assumption|]. split.
  - intros hk. exists (root_calls cfg (t_doc t) (t_root t)), (map (calls_of cfg (t_doc t)) js). split; [apply root_added|]. split.
    + assert (ha : forall j, In j js -> added cfg (t_doc t) j (calls_of cfg (t_doc t) j)).
      { intros j hj. destruct (hk j hj) as [k hkj]. apply calls_added with (t_root t) k; [assumption|now apply (proj1 (proj2 ho))|assumption]. }
      clear -ha. induction js as [|j js IH]; cbn [map]; constructor; [apply ha; now left|]. apply IH. intros. apply ha. now right.
    + intros B f b. unfold buildRigidBodySystemFromUrdf. rewrite h. cbn [rbind]. rewrite (proj1 (he B f b) hk).
      set (cs := root_calls cfg (t_doc t) (t_root t) ++ concat (map (calls_of cfg (t_doc t)) js)). split.
      * intros t' b'. destruct (feed f cs b) as [b1| | |] eqn:e; cbn [rbind].
        -- apply feed_fed in e. split; [intros q; injection q as <- <-; auto|]. intros [-> q]. apply feed_fed in e, q. rewrite e in q. now injection q as <-.
        -- split; [discriminate|]. intros [_ q]. apply feed_fed in q. congruence.
        -- split; [discriminate|]. intros [_ q]. apply feed_fed in q. congruence.
        -- split; [discriminate|]. intros [_ q]. apply feed_fed in q. congruence.
      * intros hn. destruct (feed_or _ f cs b) as [[b1 e]|e]; [apply feed_fed in e; now apply hn in e|]. now rewrite e.
  - intros [j [hj hk]] B f b. unfold buildRigidBodySystemFromUrdf. rewrite h. cbn [rbind]. now rewrite (proj2 (he B f b) j hj hk).
Qed.


Lemma C57_safe_proof : forall (d : list (elem R)) cfg rm mc B (f : call R -> B -> bool * B) b,
  (exists r, buildRigidBodySystemFromUrdf cfg f d rm mc b = Ok r) \/ buildRigidBodySystemFromUrdf cfg f d rm mc b = Throw.
Proof.
  intros d cfg rm mc B f b. destruct (prepare_or rm mc d) as [[t e]|e].
  - destruct (prepare_ok rm mc d t e) as [hs ht]. destruct (emit_calls t hs cfg) as [js [_ he]]. unfold buildRigidBodySystemFromUrdf. rewrite e. cbn [rbind].
    destruct (classic (exists j, In j js /\ forall k, ~ kind j k)) as [[j [hj hk]]|hn].
    + right. now rewrite (proj2 (he B f b) j hj hk).
    + rewrite (proj1 (he B f b)).
      * destruct (feed_or _ f (root_calls cfg (t_doc t) (t_root t) ++ concat (map (calls_of cfg (t_doc t)) js)) b) as [[b' ->]| ->]; [left; cbn; now eexists|now right].
      * intros j hj. destruct (classic (exists k, kind j k)) as [hk|hk]; [assumption|]. exfalso. apply hn. exists j. split; [assumption|]. intros k q. apply hk. now exists k.
  - right. unfold buildRigidBodySystemFromUrdf. now rewrite e.
Qed.


(** ** Masses *)

Lemma bodies_app : forall h a b, bodies_sum h (a ++ b) = bodies_sum h a + bodies_sum h b.
Proof. intros h a b. unfold bodies_sum. induction a as [|c a IH]; cbn [app fold_right]; [ring|]. rewrite IH. ring. Qed.
Lemma bodies_rev : forall h a, bodies_sum h (rev a) = bodies_sum h a.
Proof. intros h a. induction a as [|c a IH]; cbn [rev]; [reflexivity|]. rewrite bodies_app, IH. unfold bodies_sum at 2 3. cbn [fold_right]. fold (bodies_sum h a). ring. Qed.
Lemma rsum_perm : forall g a b, Permutation a b -> rsum g a = rsum g b.
Proof. intros g a b h. unfold rsum. induction h; cbn [fold_right]; [reflexivity|now rewrite IHh|ring|congruence]. Qed.
Lemma fed_rec : forall cs b b', fed Model_Builder.recorder cs b b' -> b' = rev cs ++ b.
Proof.
  intros cs. induction cs as [|c cs IH]; intros b b' h; inversion h as [|c' cs' x b1 b2 e h']; subst; [reflexivity|].
  injection e as <-. rewrite (IH _ _ h'). cbn [rev]. now rewrite <- app_assoc.
Qed.

Lemma fed_all : forall (cs b : list (call R)), exists s, fed Model_Builder.recorder cs b s.
Proof.
  induction cs as [|c cs IH]; intros b; [eexists; constructor|]. destruct (IH (c :: b)) as [s h]. exists s.
  apply fed_cons with (c :: b); [reflexivity|assumption].
Qed.

Lemma links_of : forall (t : tree R) js, sound t -> connected (t_doc t) (t_root t) -> in_order (t_doc t) (t_root t) js ->
  Permutation (link_names (t_doc t)) (t_root t :: map (@j_child R) js).
Proof.
  intros t js hs hc [h1 [h2 h3]]. pose proof (sd_doc t hs) as w.
  assert (hj : forall j, In j js -> In j (joints (t_doc t))) by (intros j hj; apply (attached_in t); now apply h2).
  assert (hr : is_root (t_doc t) (t_root t)) by (now apply (sd_root t hs)).
  apply NoDup_Permutation; [apply (wc_links _ w)| |].
  - constructor.
    + intros hi. apply in_map_iff in hi. destruct hi as [j [e hi]]. apply (proj2 hr j (hj j hi)). assumption.
    + clear h2 h3. induction h1 as [|j js hn h1 IH]; cbn [map]; constructor.
      * intros hi. apply in_map_iff in hi. destruct hi as [k [e hi]]. apply hn.
        rewrite <- (child_inj (t_doc t) k j w (hj k (or_intror hi)) (hj j (or_introl eq_refl)) e). assumption.
      * apply IH. intros k hk. apply hj. now right.
  - intros l. split.
    + intros hl. destruct (hc l hl) as [p hp]. destruct p as [|j p _] using rev_ind; [left; apply path_nil_inv in hp; now symmetry|right].
      pose proof hp as hp'. apply path_snoc_inv in hp'. destruct hp' as [-> _]. apply in_map. apply h2. now exists p.
    + intros [<-|hi]; [apply hr|]. apply in_map_iff in hi. destruct hi as [j [<- hi]]. apply (wc_ends _ w j (hj j hi)).
Qed.

Lemma built_total : forall (t : tree R) cfg js c0 css h g, sound t -> tidy (t_doc t) (t_root t) -> connected (t_doc t) (t_root t) ->
  in_order (t_doc t) (t_root t) js -> added_root cfg (t_doc t) (t_root t) c0 -> Forall2 (added cfg (t_doc t)) js css ->
  (forall i l, body_of i (Model_Builder.l_mass l) -> h l = g (Model_Builder.l_body l) i) ->
  bodies_sum h (c0 ++ concat css) = total g (t_doc t).
Proof.
  intros t cfg js c0 css h g hs ht hc ho h0 hF hg. rewrite (total_at _ _ (wc_links _ (sd_doc t hs))), (rsum_perm _ _ _ (links_of t js hs hc ho)).
  cbn [rsum fold_right]. rewrite bodies_app. f_equal.
  - destruct h0 as [e|i m H e hm hH]; rewrite e; cbn; [reflexivity|]. rewrite Rplus_0_r. now rewrite (hg i).
  - assert (ha : forall j, In j js -> attached (t_doc t) (t_root t) j) by (intros j; apply (proj1 (proj2 ho))).
    clear ho h0. induction hF as [|j cs js css hj hF IH]; [reflexivity|]. cbn [concat map fold_right]. rewrite bodies_app, IH by (intros; apply ha; now right).
    f_equal. pose proof (ht j (ha j (or_introl eq_refl))) as hi.
    inversion hj as [hk hn e|H hk hn hH e|ty i m H hk ei hm hH e]; subst.
    + rewrite (proj1 hi); [reflexivity|]. now apply (kind_none j None hk).
    + rewrite (proj1 hi); [cbn; ring|]. now apply (kind_none j None hk).
    + rewrite ei. cbn. rewrite Rplus_0_r. now rewrite (hg i).
Qed.

(** The calls a builder that accepts everything receives. *)
Lemma recorded : forall (d : list (elem R)) cfg rm mc t t' cs, prepare rm mc d = Ok t ->
  buildRigidBodySystemFromUrdf cfg Model_Builder.recorder d rm mc nil = Ok (t', cs) ->
  t' = t /\ exists js c0 css, in_order (t_doc t) (t_root t) js /\ added_root cfg (t_doc t) (t_root t) c0 /\
    Forall2 (added cfg (t_doc t)) js css /\ cs = rev (c0 ++ concat css).
Proof.
  intros d cfg rm mc t t' cs h hb. destruct (C57_calls_proof d cfg rm mc t h) as [_ [_ [js [ho [h1 h2]]]]].
  destruct (classic (exists j, In j js /\ forall k, ~ kind j k)) as [hn|hn]; [rewrite (h2 hn) in hb; discriminate|].
  destruct h1 as [c0 [css [g1 [g2 g3]]]].
  { intros j hj. destruct (classic (exists k, kind j k)) as [hk|hk]; [assumption|]. exfalso. apply hn. exists j. split; [assumption|]. intros k q. apply hk. now exists k. }
  apply (g3 _ Model_Builder.recorder nil) in hb. destruct hb as [-> hf]. split; [reflexivity|]. exists js, c0, css.
  split; [assumption|]. split; [assumption|]. split; [assumption|]. apply fed_rec in hf. now rewrite app_nil_r in hf.
Qed.

Lemma rsum_filter : forall g a ns, NoDup ns -> In a ns -> rsum g (filter (fun n => negb (n =? a)%string) ns) = rsum g ns - g a.
Proof.
  intros g a ns hd. induction hd as [|n ns hn hd IH]; intros ha; [contradiction|]. cbn [filter].
  destruct ha as [->|ha].
  - rewrite String.eqb_refl. cbn [negb].
    assert (e : filter (fun n => negb (n =? a)%string) ns = ns).
    { clear -hn. induction ns as [|m ns IH]; [reflexivity|]. cbn [filter]. destruct (m =? a)%string eqn:e.
      - apply String.eqb_eq in e. subst. exfalso. apply hn. now left.
      - cbn [negb]. f_equal. apply IH. intros h. apply hn. now right. }
    rewrite e. unfold rsum. cbn [fold_right]. ring.
  - destruct (n =? a)%string eqn:e; [apply String.eqb_eq in e; congruence|]. cbn [negb]. unfold rsum in *. cbn [fold_right]. rewrite (IH ha). ring.
Qed.

Lemma mass_rm_root : forall t t' : tree R, sound t -> rm_root_joint t = Ok t' ->
  total_mass (t_doc t') = total_mass (t_doc t) - mass_at (t_doc t) (t_root t).
Proof.
  intros t t' hs h. destruct (rm_root_sound t t' hs h) as [hs' [j [hj [hp [ed _]]]]].
  unfold total_mass. rewrite (total_at _ _ (wc_links _ (sd_doc t' hs'))), (total_at _ _ (wc_links _ (sd_doc t hs))).
  assert (el' : link_names (t_doc t') = filter (fun n => negb (n =? t_root t)%string) (link_names (t_doc t)) /\
    forall n, n <> t_root t -> inertial_at (t_doc t') n = inertial_at (t_doc t) n).
  { rewrite ed. unfold link_names, inertial_at, rm_joint, rm_link. rewrite !links_filter.
    assert (e : filter (fun _ => true) (filter (fun l => negb (l_name l =? t_root t)%string) (links (t_doc t))) = filter (fun l => negb (l_name l =? t_root t)%string) (links (t_doc t))).
    { generalize (filter (fun l => negb (l_name l =? t_root t)%string) (links (t_doc t))). intros l. induction l as [|x l IH]; [reflexivity|]. cbn. now rewrite IH. }
    rewrite e. clear e. induction (links (t_doc t)) as [|l ls [IH1 IH2]]; [split; [reflexivity|intros; reflexivity]|]. cbn [filter map].
    destruct (l_name l =? t_root t)%string eqn:e; cbn [negb map find]; split; try (now rewrite IH1).
    - intros n hn. rewrite (IH2 n hn). apply String.eqb_eq in e. destruct (l_name l =? n)%string eqn:e2; [|reflexivity].
      apply String.eqb_eq in e2. congruence.
    - intros n hn. destruct (l_name l =? n)%string; [reflexivity|now apply IH2]. }
  destruct el' as [e1 e2]. rewrite e1.
  rewrite (rsum_ext (fun n => val (@i_mass R) (inertial_at (t_doc t') n)) (fun n => val (@i_mass R) (inertial_at (t_doc t) n))).
  - rewrite rsum_filter; [reflexivity|apply (wc_links _ (sd_doc t hs))|]. apply (sd_root t hs). reflexivity.
  - intros n hn. rewrite e2; [reflexivity|]. apply filter_In in hn. destruct hn as [_ hn]. apply negb_true_iff, String.eqb_neq in hn. assumption.
Qed.

Lemma prepare_mass : forall rm mc (d : list (elem R)) t0 t, ctor d = Ok t0 -> prepare rm mc d = Ok t -> connected d (t_root t0) ->
  connected (t_doc t) (t_root t) /\ total_mass (t_doc t) = total_mass d - (if rm then mass_at d (t_root t0) else 0).
Proof.
  intros rm mc d t0 t h0 h hc. destruct (prepare_inv rm mc d t h) as [t0' [t1 [t2 [names [h0' [h1 [h2 [h3 he]]]]]]]].
  rewrite h0 in h0'. injection h0' as <-. destruct (C56_sound_proof d t0 _ t h0 he) as [_ [_ g]]. split; [now apply g|]. clear g he.
  destruct (C44_or_throws_proof d) as [[_ [u [e [ed [_ hs]]]]]|[_ e]]; [|congruence]. rewrite h0 in e. injection e as <-.
  assert (g1 : sound t1 /\ connected (t_doc t1) (t_root t1) /\ total_mass (t_doc t1) = total_mass d - (if rm then mass_at d (t_root t0) else 0)).
  { destruct rm.
    - destruct (good_apply RmRootJoint t0 t1 hs h1) as [g1 [_ g3]]. split; [assumption|]. rewrite ed in g3. split; [now apply g3|].
      rewrite <- ed. now apply mass_rm_root.
    - injection h1 as <-. split; [assumption|]. rewrite ed. split; [assumption|ring]. }
  destruct g1 as [s1 [c1 m1]].
  assert (g2 : sound t2 /\ connected (t_doc t2) (t_root t2) /\ total_mass (t_doc t2) = total_mass (t_doc t1)).
  { destruct mc.
    - destruct (good_apply MakeContinuousFixed t1 t2 s1 h2) as [g1 [_ g3]]. split; [assumption|]. split; [now apply g3|].
      now apply (mass_apply MakeContinuousFixed t1 t2).
    - injection h2 as <-. auto. }
  destruct g2 as [s2 [c2 m2]]. rewrite <- m1, <- m2. apply (mass_apply MakeMasslessFixed t2 t s2 c2); [|exact I]. cbn [apply]. now rewrite h3.
Qed.

Lemma C57_mass_proof : forall (d : list (elem R)) cfg rm mc t0 t cs, ctor d = Ok t0 -> connected d (t_root t0) ->
  buildRigidBodySystemFromUrdf cfg Model_Builder.recorder d rm mc nil = Ok (t, cs) ->
  built_mass cs = total_mass d - (if rm then mass_at d (t_root t0) else 0).
Proof.
  intros d cfg rm mc t0 t cs h0 hc hb.
  assert (hp : exists t1, prepare rm mc d = Ok t1).
  { unfold buildRigidBodySystemFromUrdf in hb. destruct (prepare rm mc d) as [t1| | |]; try discriminate. now exists t1. }
  destruct hp as [t1 hp]. destruct (recorded d cfg rm mc t1 t cs hp hb) as [-> [js [c0 [css [g1 [g2 [g3 ->]]]]]]].
  destruct (prepare_mass rm mc d t0 t1 h0 hp hc) as [c1 <-]. destruct (prepare_ok rm mc d t1 hp) as [s1 ht].
  unfold built_mass. rewrite bodies_rev. unfold total_mass. apply built_total with cfg js; try assumption. intros i l hl. apply hl.
Qed.


Lemma C57_centre_partial_proof : forall (d : list (elem R)) cfg t0 t cs, ctor d = Ok t0 -> connected d (t_root t0) -> heavy d ->
  buildRigidBodySystemFromUrdf cfg Model_Builder.recorder d false false nil = Ok (t, cs) ->
  forall place, allowed d place -> built_first place cs = total_first place d.
Proof.
  intros d cfg t0 t cs h0 hc hh hb place ha.
  assert (hp : exists t1, prepare false false d = Ok t1).
  { unfold buildRigidBodySystemFromUrdf in hb. destruct (prepare false false d) as [t1| | |]; try discriminate. now exists t1. }
  destruct hp as [t1 hp]. destruct (recorded d cfg false false t1 t cs hp hb) as [-> [js [c0 [css [g1 [g2 [g3 ->]]]]]]].
  destruct (prepare_mass false false d t0 t1 h0 hp hc) as [c1 _]. destruct (prepare_ok false false d t1 hp) as [s1 ht].
  destruct (prepare_inv false false d t1 hp) as [t0' [t1' [t2 [names [h0' [h1 [h2 [h3 _]]]]]]]].
  rewrite h0 in h0'. injection h0' as <-. injection h1 as <-. injection h2 as <-.
  destruct (C44_or_throws_proof d) as [[_ [u [e [ed [_ hs]]]]]|[_ e]]; [|congruence]. rewrite h0 in e. injection e as <-.
  rewrite <- ed in hh, ha |- *. destruct (C49_massless_physics_partial_proof t0 t1 names hs h3 hh place ha) as [<- _].
  assert (hx : forall i (l : blink R), body_of i (Model_Builder.l_mass l) ->
    vscale (bm_mass (Model_Builder.l_mass l)) (place (Model_Builder.l_body l) (bm_com (Model_Builder.l_mass l))) =
    first_moment (frame_of place (Model_Builder.l_body l) i) i).
  { intros i l [e1 [e2 _]]. unfold first_moment, frame_of. rewrite e1, e2. f_equal. f_equal.
    rewrite <- motion_pose. rewrite motion_0. unfold toEigenTransform.
    destruct (p_xyz (pose_from (i_origin i))) as [[x y] z]. reflexivity. }
  unfold built_first, total_first. rewrite !bodies_rev.
  f_equal; [f_equal|]; (apply built_total with cfg js; try assumption; intros i l hl; cbv beta).
  - exact (f_equal vx (hx i l hl)).
  - exact (f_equal vy (hx i l hl)).
  - exact (f_equal vz (hx i l hl)).
Qed.


(** ** Names *)

Notation checker := (Model_Builder.names_checker Model_Builder.recorder).
Notation nstate := (Model_Builder.Names * list (call R))%type.

Lemma bmem_in : forall s l, Model_Builder.mem s l = true <-> In s l.
Proof.
  intros s l. unfold Model_Builder.mem. rewrite existsb_exists. split.
  - intros [x [h e]]. apply String.eqb_eq in e. now subst x.
  - intros h. exists s. split; [assumption|apply String.eqb_refl].
Qed.
Lemma bmem_out : forall s l, Model_Builder.mem s l = false <-> ~ In s l.
Proof. intros s l. rewrite <- bmem_in. now destruct (Model_Builder.mem s l). Qed.
Lemma fed_one : forall B (f : call R -> B -> bool * B) c b b', fed f [c] b b' <-> f c b = (true, b').
Proof.
  intros B f c b b'. split.
  - intros h. inversion h as [|c' cs' x b1 b2 e h']; subst. now inversion h'; subst.
  - intros h. apply fed_cons with b'; [assumption|constructor].
Qed.

Section Names.
Variable t : tree R.
Hypothesis hs : sound t.
Variable cfg : Config.
Variable js : list (Joint R).
Notation d := (t_doc t).
Notation root := (t_root t).
Hypothesis ho : in_order d root js.
Hypothesis hgal : forall l, In l (link_names d) -> l <> cfg_galilean cfg.
Notation fx j := (j_type j = "fixed"%string).

Record NI (l : list (Joint R)) (n : Model_Builder.Names) : Prop := {
  ni_bodies : forall s, In s (Model_Builder.n_bodies n) <-> s = cfg_galilean cfg \/ s = root \/ exists j, In j l /\ ~ fx j /\ j_child j = s;
  ni_joints : forall s, In s (Model_Builder.n_joints n) <-> s = cfg_joint_name cfg root \/ exists j, In j l /\ ~ fx j /\ j_name j = s;
  ni_frames : forall s, In s (Model_Builder.n_sframes n) <-> cfg_no_static_frame cfg = false /\ exists j, In j l /\ fx j /\ j_child j = s;
  ni_transforms : forall s, In s (Model_Builder.n_stransforms n) <-> cfg_no_static_frame cfg = false /\ exists j, In j l /\ fx j /\ j_name j = s
}.

Definition cond (l : list (Joint R)) (j : Joint R) : Prop :=
  (~ fx j -> j_parent j = root \/ exists k, In k l /\ ~ fx k /\ j_child k = j_parent j) /\
  (cfg_no_static_frame cfg = false \/ ~ fx j -> j_name j <> cfg_joint_name cfg root).

Lemma step_names : forall l1 j l2 cs n b, js = l1 ++ j :: l2 -> added cfg d j cs -> NI l1 n ->
  ((exists s : nstate, fed checker cs (n, b) s) <-> cond l1 j) /\
  forall s : nstate, fed checker cs (n, b) s -> NI (l1 ++ [j]) (fst s).
Proof.
  intros l1 j l2 cs n b ej ha hn. destruct ho as [hd [hat hpar]]. pose proof (sd_doc t hs) as w.
  assert (hin : forall k, In k js -> In k (joints d)) by (intros k hk; apply (attached_in t); now apply hat).
  assert (hj : In j js) by (rewrite ej; apply in_or_app; right; now left).
  assert (hl1 : forall k, In k l1 -> In k js /\ k <> j).
  { intros k hk. rewrite ej. split; [apply in_or_app; now left|]. intros ->. rewrite ej in hd. apply NoDup_remove_2 in hd. apply hd. apply in_or_app. now left. }
  assert (hc : forall k, In k l1 -> j_child k <> j_child j).
  { intros k hk e. destruct (hl1 k hk) as [h1 h2]. apply h2. now apply (child_inj d k j w (hin k h1) (hin j hj)). }
  assert (hnm : forall k, In k l1 -> j_name k <> j_name j).
  { intros k hk e. destruct (hl1 k hk) as [h1 h2]. apply h2. now apply (name_inj d k j w (hin k h1) (hin j hj)). }
  assert (hcr : j_child j <> root).
  { apply (proj2 (proj2 (sd_root t hs root) eq_refl) j (hin j hj)). }
  assert (hcg : j_child j <> cfg_galilean cfg) by (apply hgal; apply (wc_ends _ w j (hin j hj))).
  assert (hpg : j_parent j <> cfg_galilean cfg) by (apply hgal; apply (wc_ends _ w j (hin j hj))).
  assert (hnf : Model_Builder.knownFrame n (j_child j) = false).
  { unfold Model_Builder.knownFrame, Model_Builder.knownBody. rewrite orb_false_iff, !bmem_out, (ni_bodies _ _ hn), (ni_frames _ _ hn). split.
    - intros [e|[e|[k [hk [_ e]]]]]; [contradiction|contradiction|now apply (hc k hk)].
    - intros [_ [k [hk [_ e]]]]. now apply (hc k hk). }
  assert (hnt : Model_Builder.knownTransform n (j_name j) = false <-> j_name j <> cfg_joint_name cfg root).
  { unfold Model_Builder.knownTransform, Model_Builder.knownJoint. rewrite orb_false_iff, !bmem_out, (ni_joints _ _ hn), (ni_transforms _ _ hn). split.
    - intros [h1 _] e. apply h1. now left.
    - intros h. split.
      + intros [e|[k [hk [_ e]]]]; [contradiction|now apply (hnm k hk)].
      + intros [_ [k [hk [_ e]]]]. now apply (hnm k hk). }
  inversion ha as [hk hsf e|H hk hsf hH e|ty i m H hk ei hm hH e]; subst cs.
  - (* nothing *)
    assert (hf : fx j) by (now apply (kind_none j None hk)). split.
    + split; [|intros _; eexists; constructor]. intros _. split; [contradiction|]. intros [h|h]; [congruence|contradiction].
    + intros s h. inversion h; subst. cbn [fst]. destruct hn as [n1 n2 n3 n4]. constructor; intros x.
      * rewrite n1. split; [intros [q|[q|[k [q1 q2]]]]; auto; right; right; exists k; split; [apply in_or_app; now left|assumption]|].
        intros [q|[q|[k [q1 [q2 q3]]]]]; auto. apply in_app_or in q1. destruct q1 as [q1|[<-|[]]]; [eauto 12|contradiction].
      * rewrite n2. split; [intros [q|[k [q1 q2]]]; auto; right; exists k; split; [apply in_or_app; now left|assumption]|].
        intros [q|[k [q1 [q2 q3]]]]; auto. apply in_app_or in q1. destruct q1 as [q1|[<-|[]]]; [eauto 12|contradiction].
      * rewrite n3. split; intros [q _]; congruence.
      * rewrite n4. split; intros [q _]; congruence.
  - (* frame *)
    assert (hf : fx j) by (now apply (kind_none j None hk)).
    assert (hp : Model_Builder.knownFrame n (j_parent j) = true).
    { unfold Model_Builder.knownFrame, Model_Builder.knownBody. rewrite orb_true_iff, !bmem_in, (ni_bodies _ _ hn), (ni_frames _ _ hn).
      destruct (hpar l1 j l2 ej) as [q|[k [q1 q2]]]; [left; auto|]. destruct (classic (fx k)) as [hfk|hfk]; [right; split; [assumption|eauto 12]|left; right; right; eauto 12]. }
    assert (hfed : forall s, fed checker [Model_Builder.AddStaticFrame (Model_Builder.mkStaticFrame (j_parent j) (j_child j) (j_name j) H)] (n, b) s <->
      j_name j <> cfg_joint_name cfg root /\
      s = (Model_Builder.mkNames (Model_Builder.n_bodies n) (Model_Builder.n_joints n) (j_child j :: Model_Builder.n_sframes n) (j_name j :: Model_Builder.n_stransforms n),
           Model_Builder.AddStaticFrame (Model_Builder.mkStaticFrame (j_parent j) (j_child j) (j_name j) H) :: b)).
    { intros s. rewrite fed_one. unfold Model_Builder.names_checker. cbn [Model_Builder.f_parent Model_Builder.f_frame Model_Builder.f_transform].
      rewrite hp, hnf. cbn [negb]. destruct (Model_Builder.knownTransform n (j_name j)) eqn:ek.
      - split; [discriminate|]. intros [q _]. apply hnt in q. discriminate.
      - cbn [Model_Builder.recorder]. split; [intros q; injection q as <-; split; [now apply hnt|reflexivity]|intros [_ ->]; reflexivity]. }
    split.
    + split.
      * intros [s q]. apply hfed in q. split; [contradiction|]. intros _. apply q.
      * intros [_ q]. eexists. apply hfed. split; [apply q; now left|reflexivity].
    + intros s q. apply hfed in q. destruct q as [_ ->]. cbn [fst]. destruct hn as [n1 n2 n3 n4]. constructor; intros x; cbn [Model_Builder.n_bodies Model_Builder.n_joints Model_Builder.n_sframes Model_Builder.n_stransforms].
      * rewrite n1. split; [intros [q|[q|[k [q1 q2]]]]; auto; right; right; exists k; split; [apply in_or_app; now left|assumption]|].
        intros [q|[q|[k [q1 [q2 q3]]]]]; auto. apply in_app_or in q1. destruct q1 as [q1|[<-|[]]]; [eauto 12|contradiction].
      * rewrite n2. split; [intros [q|[k [q1 q2]]]; auto; right; exists k; split; [apply in_or_app; now left|assumption]|].
        intros [q|[k [q1 [q2 q3]]]]; auto. apply in_app_or in q1. destruct q1 as [q1|[<-|[]]]; [eauto 12|contradiction].
      * cbn [In]. rewrite n3. split.
        -- intros [<-|[_ [k [q1 q2]]]]; (split; [assumption|]); [exists j|exists k]; (split; [apply in_or_app|auto]); [right; now left|now left].
        -- intros [_ [k [q1 [q2 q3]]]]. apply in_app_or in q1. destruct q1 as [q1|[<-|[]]]; [right; split; [assumption|eauto 12]|now left].
      * cbn [In]. rewrite n4. split.
        -- intros [<-|[_ [k [q1 q2]]]]; (split; [assumption|]); [exists j|exists k]; (split; [apply in_or_app|auto]); [right; now left|now left].
        -- intros [_ [k [q1 [q2 q3]]]]. apply in_app_or in q1. destruct q1 as [q1|[<-|[]]]; [right; split; [assumption|eauto 12]|now left].
  - (* link *)
    assert (hf : ~ fx j) by (intros q; apply (kind_none j _ hk) in q; discriminate).
    assert (hp : Model_Builder.knownBody n (j_parent j) = true <-> j_parent j = root \/ exists k, In k l1 /\ ~ fx k /\ j_child k = j_parent j).
    { unfold Model_Builder.knownBody. rewrite bmem_in, (ni_bodies _ _ hn). split; [intros [q|[q|q]]; [contradiction|auto|auto]|intros [q|q]; auto]. }
    assert (hfed : forall s, fed checker [Model_Builder.AddLink (Model_Builder.mkLink (j_parent j) (j_child j) (j_name j) H ty m)] (n, b) s <->
      (j_parent j = root \/ exists k, In k l1 /\ ~ fx k /\ j_child k = j_parent j) /\ j_name j <> cfg_joint_name cfg root /\
      s = (Model_Builder.mkNames (j_child j :: Model_Builder.n_bodies n) (j_name j :: Model_Builder.n_joints n) (Model_Builder.n_sframes n) (Model_Builder.n_stransforms n),
           Model_Builder.AddLink (Model_Builder.mkLink (j_parent j) (j_child j) (j_name j) H ty m) :: b)).
    { intros s. rewrite fed_one. unfold Model_Builder.names_checker. cbn [Model_Builder.l_parent Model_Builder.l_body Model_Builder.l_joint].
      destruct (Model_Builder.knownBody n (j_parent j)) eqn:eb; cbn [negb].
      - rewrite hnf. destruct (Model_Builder.knownTransform n (j_name j)) eqn:ek.
        + split; [discriminate|]. intros [_ [q _]]. apply hnt in q. discriminate.
        + cbn [Model_Builder.recorder]. split; [intros q; injection q as <-; split; [now apply hp|split; [now apply hnt|reflexivity]]|intros [_ [_ ->]]; reflexivity].
      - split; [discriminate|]. intros [q _]. apply hp in q. discriminate. }
    split.
    + split.
      * intros [s q]. apply hfed in q. destruct q as [q1 [q2 _]]. split; auto.
      * intros [q1 q2]. eexists. apply hfed. split; [now apply q1|split; [apply q2; now right|reflexivity]].
    + intros s q. apply hfed in q. destruct q as [_ [_ ->]]. cbn [fst]. destruct hn as [n1 n2 n3 n4]. constructor; intros x; cbn [Model_Builder.n_bodies Model_Builder.n_joints Model_Builder.n_sframes Model_Builder.n_stransforms].
      * cbn [In]. rewrite n1. split.
        -- intros [<-|[q|[q|[k [q1 q2]]]]]; auto; right; right; [exists j|exists k]; (split; [apply in_or_app|auto]); [right; now left|now left].
        -- intros [q|[q|[k [q1 [q2 q3]]]]]; auto. apply in_app_or in q1. destruct q1 as [q1|[<-|[]]]; [right; right; right; eauto 12|now left].
      * cbn [In]. rewrite n2. split.
        -- intros [<-|[q|[k [q1 q2]]]]; auto; right; [exists j|exists k]; (split; [apply in_or_app|auto]); [right; now left|now left].
        -- intros [q|[k [q1 [q2 q3]]]]; auto. apply in_app_or in q1. destruct q1 as [q1|[<-|[]]]; [right; right; eauto 12|now left].
      * rewrite n3. split; intros [q [k [q1 [q2 q3]]]]; (split; [assumption|]); exists k; (split; [|auto]).
        -- apply in_or_app. now left.
        -- apply in_app_or in q1. destruct q1 as [q1|[<-|[]]]; [assumption|contradiction].
      * rewrite n4. split; intros [q [k [q1 [q2 q3]]]]; (split; [assumption|]); exists k; (split; [|auto]).
        -- apply in_or_app. now left.
        -- apply in_app_or in q1. destruct q1 as [q1|[<-|[]]]; [assumption|contradiction].
Qed.

Lemma run_names : forall l2 css l1 n b, js = l1 ++ l2 -> Forall2 (added cfg d) l2 css -> NI l1 n ->
  ((exists s : nstate, fed checker (concat css) (n, b) s) <-> forall a j c, l2 = a ++ j :: c -> cond (l1 ++ a) j).
Proof.
  induction l2 as [|j l2 IH]; intros css l1 n b ej hF hn; inversion hF as [|j' cs l2' css' hj hF' e1 e2]; subst css; try subst j' l2'.
  - cbn [concat]. split; [intros _ a j c e; destruct a; discriminate|intros _; eexists; constructor].
  - cbn [concat]. destruct (step_names l1 j l2 cs n b ej hj hn) as [h1 h2]. split.
    + intros [s h]. apply fed_app in h. destruct h as [u [g1 g2]]. intros a k c e. destruct a as [|a0 a]; cbn [app] in e.
      * injection e as <- <-. rewrite app_nil_r. apply h1. now exists u.
      * injection e as <- e. destruct u as [n' b']. specialize (h2 _ g1). cbn [fst] in h2.
        assert (q : cond ((l1 ++ [j]) ++ a) k).
        { assert (ej2 : js = (l1 ++ [j]) ++ l2) by (now rewrite <- app_assoc).
          apply (proj1 (IH css' (l1 ++ [j]) n' b' ej2 hF' h2) (ex_intro _ s g2) a k c e). }
        rewrite <- app_assoc in q. exact q.
    + intros h. destruct (proj2 h1) as [u g1]; [specialize (h nil j l2 eq_refl); now rewrite app_nil_r in h|].
      destruct u as [n' b']. specialize (h2 _ g1). cbn [fst] in h2.
      assert (ej2 : js = (l1 ++ [j]) ++ l2) by (now rewrite <- app_assoc).
      destruct (proj2 (IH css' (l1 ++ [j]) n' b' ej2 hF' h2)) as [s g2].
      * intros a k c e. rewrite <- app_assoc. apply (h (j :: a) k c). cbn [app]. now rewrite e.
      * exists s. apply fed_app. now exists (n', b').
Qed.

Lemma all_names : forall c0 css, inertial_at d root <> None -> added_root cfg d root c0 -> Forall2 (added cfg d) js css ->
  ((exists s : nstate, fed checker (c0 ++ concat css) (Model_Builder.names_init (cfg_galilean cfg), nil) s) <-> names_fit cfg d root).
Proof.
  intros c0 css hr h0 hF. destruct h0 as [e|i m H e hm hH]; [contradiction|].
  set (c := Model_Builder.AddLink (Model_Builder.mkLink ""%string root (cfg_joint_name cfg root) H FreeFlyer m)).
  set (n1 := Model_Builder.mkNames [root; cfg_galilean cfg] [cfg_joint_name cfg root] nil nil).
  assert (hrl : In root (link_names d)) by (apply (sd_root t hs); reflexivity).
  assert (hf0 : forall s : nstate, fed checker [c] (Model_Builder.names_init (cfg_galilean cfg), nil) s <-> cfg_galilean cfg = ""%string /\ s = (n1, cons c nil)).
  { intros s. rewrite fed_one. unfold Model_Builder.names_checker, c, Model_Builder.names_init, Model_Builder.knownBody, Model_Builder.knownTransform, Model_Builder.knownJoint, Model_Builder.knownFrame, Model_Builder.knownBody, Model_Builder.mem.
    cbn [Model_Builder.l_parent Model_Builder.l_body Model_Builder.l_joint Model_Builder.n_bodies Model_Builder.n_joints Model_Builder.n_sframes Model_Builder.n_stransforms existsb].
    rewrite !orb_false_r. destruct ("" =? cfg_galilean cfg)%string eqn:e1.
    - apply String.eqb_eq in e1. assert (e2 : (root =? cfg_galilean cfg)%string = false) by (apply String.eqb_neq; now apply hgal).
      rewrite e2. cbn [negb orb Model_Builder.recorder]. split; [intros q; injection q as <-; split; [now symmetry|reflexivity]|intros [_ ->]; reflexivity].
    - apply String.eqb_neq in e1. cbn [negb]. split; [discriminate|]. intros [q _]. congruence. }
  assert (hn : NI nil n1).
  { constructor; intros s; cbn.
    - split; [intros [q|[q|[]]]; auto|intros [q|[q|[j [[] _]]]]; auto].
    - split; [intros [q|[]]; auto|intros [q|[j [[] _]]]; auto].
    - split; [intros []|intros [_ [j [[] _]]]].
    - split; [intros []|intros [_ [j [[] _]]]]. }
  pose proof (run_names js css nil n1 (cons c nil) eq_refl hF hn) as hrun. cbn [app] in hrun.
  assert (hcond : (forall a j b, js = a ++ j :: b -> cond a j) <->
    (forall j, movable_joint d root j -> j_parent j = root \/ exists k, movable_joint d root k /\ j_child k = j_parent j) /\
    (forall j, attached d root j -> cfg_no_static_frame cfg = false \/ j_type j <> "fixed"%string -> j_name j <> cfg_joint_name cfg root)).
  { destruct ho as [hd [hat hpar]]. split.
    - intros h. split.
      + intros j [hj hfj]. apply hat in hj. destruct (in_split _ _ hj) as [a [b ej]]. destruct (proj1 (h a j b ej) hfj) as [q|[k [q1 [q2 q3]]]]; [now left|right].
        exists k. split; [split; [|assumption]|assumption]. apply hat. rewrite ej. apply in_or_app. now left.
      + intros j hj. apply hat in hj. destruct (in_split _ _ hj) as [a [b ej]]. apply (proj2 (h a j b ej)).
    - intros [h1 h2] a j b ej. assert (hj : attached d root j) by (apply hat; rewrite ej; apply in_or_app; right; now left). split.
      + intros hfj. destruct (h1 j (conj hj hfj)) as [q|[k [[q1 q2] q3]]]; [now left|].
        destruct (hpar a j b ej) as [q|[k2 [q4 q5]]]; [now left|right]. exists k2. split; [assumption|]. split; [|assumption].
        assert (k2 = k). { apply (child_inj d k2 k (sd_doc t hs)); [|now apply (attached_in t)|congruence].
          apply (attached_in t). apply hat. rewrite ej. apply in_or_app. now left. }
        now subst k2.
      + now apply h2. }
  unfold names_fit. rewrite <- hcond, <- hrun. split.
  - intros [s h]. change (c :: concat css) with ([c] ++ concat css) in h. apply fed_app in h. destruct h as [u [g1 g2]]. apply hf0 in g1. destruct g1 as [g1 ->].
    split; [assumption|now exists s].
  - intros [g [s h]]. exists s. change ([Model_Builder.AddLink (Model_Builder.mkLink ""%string root (cfg_joint_name cfg root) H FreeFlyer m)]) with [c].
    apply fed_app. exists (n1, cons c nil). split; [apply hf0; auto|assumption].
Qed.
End Names.

Lemma C57_names_proof : forall (d : list (elem R)) cfg rm mc t, prepare rm mc d = Ok t ->
  (forall l, In l (link_names (t_doc t)) -> l <> cfg_galilean cfg) -> inertial_at (t_doc t) (t_root t) <> None ->
  (forall j, attached (t_doc t) (t_root t) j -> exists k, kind j k) ->
  ((exists r, buildRigidBodySystemFromUrdf cfg (Model_Builder.names_checker Model_Builder.recorder) d rm mc
                (Model_Builder.names_init (cfg_galilean cfg), nil) = Ok r) <->
   names_fit cfg (t_doc t) (t_root t)).
Proof.
  intros d cfg rm mc t h hgal hr hk. destruct (C57_calls_proof d cfg rm mc t h) as [hs [_ [js [ho [h1 _]]]]].
  destruct h1 as [c0 [css [g1 [g2 g3]]]]; [intros j hj; apply hk; now apply (proj1 (proj2 ho))|].
  rewrite <- (all_names t hs cfg js ho hgal c0 css hr g1 g2). destruct (g3 _ checker (Model_Builder.names_init (cfg_galilean cfg), nil)) as [g4 _]. split.
  - intros [[t' s] e]. apply g4 in e. exists s. apply e.
  - intros [s e]. exists (t, s). apply g4. auto.
Qed.


(** ** Robots that are refused *)

(** A camera that pans on a mast welded to its base, and a few other robots of three links. *)
Definition massive (m : R) : option (Inertial R) := Some (mkInertial None m 1 0 0 1 0 1).
Definition crane (base mast : option (Inertial R)) (name type : string) : list (elem R) :=
  [ELink (mkLink "base" base [] []); ELink (mkLink "mast" mast [] []); ELink (mkLink "camera" (massive 2) [] []);
   EJoint (mkJoint name type "base" "mast" None None None);
   EJoint (mkJoint "pan" "revolute" "mast" "camera" None (Some (0,0,1)) None)].
Definition crane_tree base mast name type := mkTree (crane base mast name type) [name; "pan"]%string "base".

Lemma crane_prepared : forall b, (exists m, b = Some m) ->
  ctor (crane b None "weld" "fixed") = Ok (crane_tree b None "weld" "fixed") /\ prepare false false (crane b None "weld" "fixed") = Ok (crane_tree b None "weld" "fixed").
Proof. intros b [m ->]. unfold crane_tree, crane, massive. generalize 0, 1, 2, m. intros. split; vm_compute; reflexivity. Qed.
Lemma fork_prepared : forall b, (exists m, b = Some m) ->
  ctor (crane b None "turn" "revolute") = Ok (crane_tree b None "turn" "revolute") /\ prepare false false (crane b None "turn" "revolute") = Ok (crane_tree b None "turn" "fixed").
Proof. intros b [m ->]. unfold crane_tree, crane, massive. generalize 0, 1, 2, m. intros. split; vm_compute; reflexivity. Qed.
Lemma tower_prepared : forall b n, (exists m, n = Some m) ->
  (ctor (crane b n "turn" "revolute") = Ok (crane_tree b n "turn" "revolute") /\ prepare false false (crane b n "turn" "revolute") = Ok (crane_tree b n "turn" "revolute")) /\
  (ctor (crane b n "base_joint" "revolute") = Ok (crane_tree b n "base_joint" "revolute") /\ prepare false false (crane b n "base_joint" "revolute") = Ok (crane_tree b n "base_joint" "revolute")).
Proof. intros b n [m ->]. unfold crane_tree, crane, massive. generalize 0, 1, 2, m. intros. destruct b; (split; split); vm_compute; reflexivity. Qed.

Lemma crane_attached : forall b m n ty, let d := crane b m n ty in
  attached d "base" (mkJoint n ty "base" "mast" None None None) /\
  attached d "base" (mkJoint "pan" "revolute" "mast" "camera" None (Some (0,0,1)) None) /\ connected d "base".
Proof.
  intros b m n ty d.
  pose (j1 := @mkJoint R n ty "base" "mast" None None None). pose (j2 := mkJoint "pan" "revolute" "mast" "camera" None (Some (0,0,1)) None).
  assert (i1 : In j1 (joints d)) by (now left). assert (i2 : In j2 (joints d)) by (right; now left).
  assert (p1 : path d "base" (nil ++ [j1]) (j_child j1)) by (constructor; [constructor|assumption]).
  assert (p2 : path d "base" ((nil ++ [j1]) ++ [j2]) (j_child j2)) by (constructor; assumption).
  split; [eexists; exact p1|]. split; [eexists; exact p2|]. intros l [<-|[<-|[<-|[]]]]; [exists nil; constructor|eexists; exact p1|eexists; exact p2].
Qed.
Lemma crane_joints : forall b m n ty root j, attached (crane b m n ty) root j ->
  j = mkJoint n ty "base" "mast" None None None \/ j = mkJoint "pan" "revolute" "mast" "camera" None (Some (0,0,1)) None.
Proof.
  intros b m n ty root j [p h]. apply path_snoc_inv in h. destruct h as [_ [[<-|[<-|[]]] _]]; auto.
Qed.
Lemma crane_kinds : forall b m n ty root, (ty = "fixed" \/ ty = "revolute")%string -> forall j, attached (crane b m n ty) root j -> exists k, kind j k.
Proof.
  intros b m n ty root hty j h. apply crane_joints in h. destruct h as [-> | ->].
  - destruct hty as [-> | ->]; [exists None; now apply kind_fixed|exists (Some Rx); apply kind_x; [now left|reflexivity]].
  - exists (Some Rz). apply kind_z; [now left|reflexivity].
Qed.
Lemma crane_names : forall b m n ty l, In l (link_names (crane b m n ty)) -> l <> ""%string.
Proof. intros b m n ty l [<-|[<-|[<-|[]]]]; discriminate. Qed.

Lemma not_fit_throws : forall d cfg t, prepare false false d = Ok t ->
  (forall l, In l (link_names (t_doc t)) -> l <> cfg_galilean cfg) -> inertial_at (t_doc t) (t_root t) <> None ->
  (forall j, attached (t_doc t) (t_root t) j -> exists k, kind j k) -> ~ names_fit cfg (t_doc t) (t_root t) ->
  buildRigidBodySystemFromUrdf cfg checker d false false (Model_Builder.names_init (cfg_galilean cfg), nil) = Throw.
Proof.
  intros d cfg t h1 h2 h3 h4 h5. destruct (C57_safe_proof d cfg false false _ checker (Model_Builder.names_init (cfg_galilean cfg), nil)) as [h|h]; [|assumption].
  exfalso. apply h5. now apply (C57_names_proof d cfg false false t h1 h2 h3 h4).
Qed.

Lemma C57_behind_fixed_refuted_proof : exists (d : list (elem R)) t j, ctor d = Ok t /\ connected d (t_root t) /\
  (forall n i, inertial_at d n = Some i -> 0 < i_mass i) /\ inertial_at d (t_root t) <> None /\
  (forall j, attached d (t_root t) j -> exists k, kind j k) /\
  In j (joints d) /\ j_type j = "fixed"%string /\
  buildRigidBodySystemFromUrdf Model_Builder.default_config (Model_Builder.names_checker Model_Builder.recorder) d false false
    (Model_Builder.names_init ""%string, nil) = Throw.
Proof.
  pose (b := massive 5). destruct (crane_prepared b) as [e1 e2]; [now eexists|].
  exists (crane b None "weld" "fixed"), (crane_tree b None "weld" "fixed"), (mkJoint "weld" "fixed" "base" "mast" None None None).
  destruct (crane_attached b None "weld" "fixed") as [a1 [a2 a3]].
  split; [assumption|]. split; [assumption|]. split; [|split; [discriminate|split; [|split; [now left|split; [reflexivity|]]]]].
  - intros n i. unfold inertial_at, crane. cbn [links flat_map app find l_name l_inertial].
    destruct ("base" =? n)%string; [intros h; injection h as <-; cbn; lra|]. destruct ("mast" =? n)%string; [discriminate|].
    destruct ("camera" =? n)%string; [intros h; injection h as <-; cbn; lra|discriminate].
  - apply crane_kinds. now left.
  - apply (not_fit_throws _ Model_Builder.default_config _ e2).
    + apply crane_names.
    + discriminate.
    + apply crane_kinds. now left.
    + intros [_ [h _]]. pose (j2 := mkJoint "pan" "revolute" "mast" "camera" None (Some (0,0,1)) None).
      assert (hm : movable_joint (crane b None "weld" "fixed") "base" j2) by (split; [exact a2|discriminate]).
      destruct (h j2 hm) as [h'|[k [[hk hf] ek]]]; [discriminate|].
      apply crane_joints in hk. destruct hk as [-> | ->]; [now apply hf|discriminate].
Qed.


Lemma C57_explored_refuted_proof : exists (d : list (elem R)) t j k t' cs l, ctor d = Ok t /\ connected d (t_root t) /\
  In j (joints d) /\ turning j /\ inertial_at d (j_child j) = None /\ In k (joints d) /\ j_parent k = j_child j /\
  buildRigidBodySystemFromUrdf Model_Builder.default_config Model_Builder.recorder d false false nil = Ok (t', cs) /\
  In (Model_Builder.AddLink l) cs /\ Model_Builder.l_joint l = j_name k /\
  (forall l', In (Model_Builder.AddLink l') cs -> Model_Builder.l_body l' <> Model_Builder.l_parent l).
Proof.
  pose (b := massive 5). destruct (fork_prepared b) as [e1 e2]; [now eexists|].
  destruct (crane_attached b None "turn" "revolute") as [a1 [a2 a3]]. destruct (crane_attached b None "turn" "fixed") as [b1 [b2 b3]].
  destruct (C57_calls_proof _ Model_Builder.default_config false false _ e2) as [hs [_ [js [ho [h1 _]]]]].
  destruct h1 as [c0 [css [g1 [g2 g3]]]]; [intros j hj; apply (crane_kinds b None "turn" "fixed" "base"); [now left|now apply (proj1 (proj2 ho))]|].
  pose (j2 := mkJoint "pan" "revolute" "mast" "camera" None (Some (0,0,1)) None).
  assert (hf : exists s, fed Model_Builder.recorder (c0 ++ concat css) nil s).
  { apply fed_all. }
  destruct hf as [s hf]. pose proof (fed_rec _ _ _ hf) as es. rewrite app_nil_r in es.
  assert (hin : forall c, In c s <-> In c (c0 ++ concat css)) by (intros c; rewrite es; symmetry; apply in_rev).
  assert (hj2 : In j2 js) by (apply (proj1 (proj2 ho)); exact b2).
  destruct (F2_in _ _ _ g2 j2 hj2) as [cs2 [hcs2 ha2]].
  inversion ha2 as [hk hn e|H hk hn hH e|ty i m H hk ei hm hH e]; try (exfalso; pose proof (proj1 (kind_none j2 None hk) eq_refl) as hk2; discriminate hk2).
  exists (crane b None "turn" "revolute"), (crane_tree b None "turn" "revolute"), (mkJoint "turn" "revolute" "base" "mast" None None None), j2.
  exists (crane_tree b None "turn" "fixed"), s, (Model_Builder.mkLink (j_parent j2) (j_child j2) (j_name j2) H ty m).
  split; [assumption|]. split; [assumption|]. split; [now left|]. split; [now left|]. split; [reflexivity|]. split; [right; now left|]. split; [reflexivity|].
  split; [apply g3; auto|]. split; [|split; [reflexivity|]].
  - apply hin. apply in_or_app. right. apply in_concat. exists cs2. split; [assumption|]. rewrite <- e. now left.
  - intros l' hl'. apply hin in hl'. apply in_app_or in hl'. destruct hl' as [hl'|hl'].
    + destruct g1 as [?|i0 m0 H0 e0 hm0 hH0]; [contradiction|]. destruct hl' as [q|[]]. injection q as <-. discriminate.
    + apply in_concat in hl'. destruct hl' as [cs3 [q1 q2]]. destruct (F2_in' _ _ _ g2 cs3 q1) as [j3 [hj3 ha3]].
      apply (proj1 (proj2 ho)) in hj3. apply crane_joints in hj3. destruct hj3 as [-> | ->].
      * inversion ha3 as [hk3 hn3 e3|H3 hk3 hn3 hH3 e3|ty3 i3 m3 H3 hk3 ei3 hm3 hH3 e3]; subst cs3.
        -- contradiction.
        -- destruct q2 as [q|[]]. discriminate.
        -- discriminate ei3.
      * inversion ha3 as [hk3 hn3 e3|H3 hk3 hn3 hH3 e3|ty3 i3 m3 H3 hk3 ei3 hm3 hH3 e3]; subst cs3.
        -- contradiction.
        -- destruct q2 as [q|[]]. discriminate.
        -- destruct q2 as [q|[]]. injection q as <-. discriminate.
Qed.


Lemma C57_root_name_refuted_proof : exists (d : list (elem R)) t, ctor d = Ok t /\ connected d (t_root t) /\
  (forall l, In l (link_names d) -> inertial_at d l <> None) /\
  (forall j, attached d (t_root t) j -> exists k, kind j k /\ k <> None) /\
  buildRigidBodySystemFromUrdf Model_Builder.default_config (Model_Builder.names_checker Model_Builder.recorder) d false false
    (Model_Builder.names_init ""%string, nil) = Throw.
Proof.
  pose (b := massive 5). destruct (tower_prepared b b) as [_ [e1 e2]]; [now eexists|].
  exists (crane b b "base_joint" "revolute"), (crane_tree b b "base_joint" "revolute").
  destruct (crane_attached b b "base_joint" "revolute") as [a1 [a2 a3]].
  split; [assumption|]. split; [assumption|]. split; [|split].
  - intros l [<-|[<-|[<-|[]]]]; discriminate.
  - intros j h. apply crane_joints in h. destruct h as [-> | ->].
    + exists (Some Rx). split; [apply kind_x; [now left|reflexivity]|discriminate].
    + exists (Some Rz). split; [apply kind_z; [now left|reflexivity]|discriminate].
  - apply (not_fit_throws _ Model_Builder.default_config _ e2).
    + apply crane_names.
    + discriminate.
    + apply crane_kinds. now right.
    + intros [_ [_ h]]. apply (h _ a1); [now left|reflexivity].
Qed.


Lemma C57_galilean_refuted_proof : forall (d : list (elem R)) cfg rm mc t, prepare rm mc d = Ok t ->
  cfg_galilean cfg <> ""%string -> inertial_at (t_doc t) (t_root t) <> None ->
  buildRigidBodySystemFromUrdf cfg (Model_Builder.names_checker Model_Builder.recorder) d rm mc
    (Model_Builder.names_init (cfg_galilean cfg), nil) = Throw.
Proof.
  intros d cfg rm mc t h hg hr. destruct (C57_safe_proof d cfg rm mc _ checker (Model_Builder.names_init (cfg_galilean cfg), nil)) as [[[t' s] e]|e]; [|assumption].
  exfalso. destruct (C57_calls_proof d cfg rm mc t h) as [hs [_ [js [ho [h1 h2]]]]].
  destruct (classic (exists j, In j js /\ forall k, ~ kind j k)) as [hn|hn]; [rewrite (h2 hn) in e; discriminate|].
  destruct h1 as [c0 [css [g1 [g2 g3]]]].
  { intros j hj. destruct (classic (exists k, kind j k)) as [hk|hk]; [assumption|]. exfalso. apply hn. exists j. split; [assumption|]. intros k q. apply hk. now exists k. }
  apply g3 in e. destruct e as [_ e]. destruct g1 as [q|i m H q hm hH]; [contradiction|]. cbn [app] in e.
  inversion e as [|c cs x b1 b2 ec e']; subst. unfold Model_Builder.names_checker, Model_Builder.names_init, Model_Builder.knownBody, Model_Builder.mem in ec.
  cbn [Model_Builder.l_parent Model_Builder.n_bodies existsb] in ec. rewrite orb_false_r in ec.
  destruct ("" =? cfg_galilean cfg)%string eqn:eq; [apply String.eqb_eq in eq; congruence|]. discriminate.
Qed.
