(** C103: printing and parsing in several threads. *)
From Coq Require Import ZArith Bool List Lia.
From Verif Require Import Machine MachineFacts Format Ftoa Krosh Atof Steps ReadSteps Spec ShowSpec Api Instances ThreadSpec StepsFacts ReadStepsFacts ShownText.
Import ListNotations.
Open Scope Z_scope.

(** the part of the memory a thread is about *)
Definition slice (m : memory) (lo : Z) (n : nat) : list Z := map (fun k => m (lo + Z.of_nat k)) (seq 0 n).
Lemma slice_length : forall m lo n, length (slice m lo n) = n.
Proof. intros. unfold slice. rewrite map_length. apply seq_length. Qed.
Lemma slice_nth : forall m lo n k, (k < n)%nat -> nth k (slice m lo n) 0 = m (lo + Z.of_nat k).
Proof.
  intros m lo n k L. unfold slice. rewrite (nth_indep _ 0 (m (lo + Z.of_nat 0))) by (rewrite map_length, seq_length; lia).
  rewrite (map_nth (fun k => m (lo + Z.of_nat k))), seq_nth by lia. reflexivity.
Qed.
Lemma slice_ext : forall m m' lo n, (forall a, lo <= a < lo + Z.of_nat n -> m' a = m a) -> slice m' lo n = slice m lo n.
Proof. intros m m' lo n H. unfold slice. apply map_ext_in. intros k I. apply in_seq in I. apply H. lia. Qed.
Lemma slice_holds : forall m lo s, holds m lo s <-> slice m lo (length s) = s.
Proof.
  intros m lo s. split; intros H.
  - apply (nth_ext _ _ 0 0); rewrite slice_length; [reflexivity|]. intros k L. rewrite slice_nth by exact L. apply H. exact L.
  - intros k L. rewrite <- (slice_nth m lo (length s) k L), H. reflexivity.
Qed.
Lemma slice_read : forall m lo n i c, read (slice m lo n) (i - lo) = Ok c -> lo <= i < lo + Z.of_nat n /\ c = m i.
Proof.
  intros m lo n i c H. unfold read in H. destruct (Z.ltb_spec (i - lo) 0) as [|G]; [discriminate|].
  destruct (nth_error (slice m lo n) (Z.to_nat (i - lo))) as [x|] eqn:E; [|discriminate]. injection H as <-.
  assert (L : (Z.to_nat (i - lo) < n)%nat) by (rewrite <- (slice_length m lo n); apply nth_error_Some; congruence).
  split; [lia|]. apply (nth_error_nth _ _ 0) in E. rewrite slice_nth in E by exact L. rewrite <- E. f_equal. lia.
Qed.
Lemma slice_write : forall m lo n i c b, write (slice m lo n) (i - lo) c = Ok b -> lo <= i < lo + Z.of_nat n /\ b = slice (put m i c) lo n.
Proof.
  intros m lo n i c b H. unfold write in H. rewrite slice_length in H. destruct (Z.leb_spec 0 (i - lo)) as [G|]; [|discriminate]. destruct (Z.ltb_spec (i - lo) (Z.of_nat n)) as [G2|]; [|discriminate].
  injection H as <-. split; [lia|].
  assert (U : forall l k x, length (update l k x) = length l) by (induction l as [|y l IH]; intros [|k] x; cbn; [reflexivity..|now rewrite IH]).
  assert (N : forall l k x j, nth j (update l k x) 0 = if ((j =? k)%nat && (k <? length l)%nat)%bool then x else nth j l 0).
  { induction l as [|y l IH]; intros k x j.
    - cbn [update length]. destruct k; rewrite ?andb_false_r; destruct j; reflexivity.
    - destruct k as [|k]; destruct j as [|j]; cbn [update nth length]; try reflexivity. rewrite IH. reflexivity. }
  apply (nth_ext _ _ 0 0); rewrite U, ?slice_length; [reflexivity|]. intros k L. rewrite N, slice_length, !slice_nth by lia. unfold put.
  destruct (Nat.eqb_spec k (Z.to_nat (i - lo))) as [->|D].
  - destruct (Nat.ltb_spec (Z.to_nat (i - lo)) n); [|lia]. cbn [andb]. destruct (Z.eqb_spec (lo + Z.of_nat (Z.to_nat (i - lo))) i); [reflexivity|lia].
  - cbn [andb]. destruct (Z.eqb_spec (lo + Z.of_nat k) i); [lia|reflexivity].
Qed.

(** the number of accesses of a program *)
Fixpoint cost {A} (at_ : Z) (p : prog A) (buf : list Z) : nat :=
  match p with
  | Load i k => match read buf (i - at_) with Ok x => S (cost at_ (k x) buf) | Fault _ => O end
  | Store i c k => match write buf (i - at_) c with Ok b => S (cost at_ k b) | Fault _ => O end
  | _ => O
  end.

Definition lo (j : job) : Z := match j with Print _ _ a => a | Parse _ _ a _ _ _ _ => a end.
Definition size (j : job) : nat := match j with Print t v _ => S (length (shown_text t v)) | Parse _ s _ _ _ _ _ => length s end.
Lemma cell_range : forall j a, cell j a <-> lo j <= a < lo j + Z.of_nat (size j).
Proof. intros [t v a0|t s a0 we fb fbp e] a; cbn [cell lo size]; lia. Qed.
Definition good (j : job) (fin : list Z) (o : outcome) : Prop :=
  match j with
  | Print t v at_ => o = Printed (Z.of_nat (length (shown_text t v))) /\ fin = shown_text t v ++ [0]
  | Parse t s at_ we fb fbp errno => exists r, o = Parsed r /\ atof (fmt_of t) s we fb errno = Ok r
  end.
Definition reads (j : job) (p : prog outcome) : Prop := match j with Print _ _ _ => True | Parse _ _ _ _ _ _ _ => reader p end.
Definition going (m : memory) (j : job) (p : prog outcome) : Prop :=
  reads j p /\ exists fin o, exec (lo j) p (slice m (lo j) (size j)) = Ok (fin, o) /\ good j fin o.

Lemma going_start : forall m j, ready m j -> going m j (program j).
Proof.
  intros m [t v a|t s a we fb fbp e] H; cbn [ready] in H; unfold going; cbn [lo size reads program].
  - split; [exact I|]. exists (shown_text t v ++ [0]), (Printed (Z.of_nat (length (shown_text t v)))). split; [|split; reflexivity].
    rewrite exec_bind, exec_ftoa. rewrite (C97_any_value t v H) by (rewrite slice_length; lia). cbn [bind fst snd exec].
    rewrite skipn_all2 by (rewrite slice_length; lia). reflexivity.
  - destruct H as (Hh & (r & R) & F1 & F2). split; [apply reader_bind; [apply reader_atof; exact F1|intros; constructor]|].
    apply slice_holds in Hh. rewrite Hh. exists s, (Parsed r). split; [|exists r; split; [reflexivity|exact R]].
    apply (gives_bind _ _ a _ _ s r); [|apply gives_done]. apply (atof_gives a _ _ s we fbp fb); [exact R|lia|exact F2].
Qed.

(** one access of the thread itself *)
Lemma going_step : forall m j p q m', going m j p -> step p m q m' ->
  going m' j q /\ S (cost (lo j) q (slice m' (lo j) (size j))) = cost (lo j) p (slice m (lo j) (size j)) /\ (forall a, ~ printed_cell j a -> m' a = m a).
Proof.
  intros m j p q m' (R & fin & o & E & G) S. destruct S as [i k m|i c k m]; cbn [exec cost] in *.
  - destruct (read _ _) as [x|] eqn:ER; cbn [bind] in E; [|discriminate]. destruct (slice_read _ _ _ _ _ ER) as [_ ->].
    split; [|split; reflexivity]. split; [|exists fin, o; split; assumption]. destruct j; cbn [reads] in *; [exact I|]. inversion R as [| |i' k' R' E1]. subst. apply R'.
  - destruct (write _ _ _) as [b|] eqn:ER; cbn [bind] in E; [|discriminate]. destruct (slice_write _ _ _ _ _ _ ER) as [L ->].
    destruct j as [t v a|t s a we fb fbp e]; [|exfalso; cbn [reads] in R; inversion R].
    split; [split; [exact I|exists fin, o; split; assumption]|]. split; [reflexivity|]. intros a' N. unfold put. destruct (Z.eqb_spec a' i) as [->|]; [|reflexivity].
    exfalso. apply N. cbn [printed_cell]. apply cell_range. exact L.
Qed.
(** accesses of others *)
Lemma going_other : forall m j p m', going m j p -> (forall a, cell j a -> m' a = m a) ->
  going m' j p /\ cost (lo j) p (slice m' (lo j) (size j)) = cost (lo j) p (slice m (lo j) (size j)).
Proof. intros m j p m' H N. assert (E : slice m' (lo j) (size j) = slice m (lo j) (size j)) by (apply slice_ext; intros a L; apply N, cell_range, L). unfold going. rewrite E. split; [exact H|reflexivity]. Qed.

Fixpoint costs (m : memory) (js : list job) (ps : list (prog outcome)) : nat :=
  match js, ps with j :: js, p :: ps => (cost (lo j) p (slice m (lo j) (size j)) + costs m js ps)%nat | _, _ => O end.
Lemma going_others : forall m m' js ps, Forall2 (going m) js ps -> (forall j a, In j js -> cell j a -> m' a = m a) -> Forall2 (going m') js ps /\ costs m' js ps = costs m js ps.
Proof.
  intros m m' js ps F. induction F as [|j p js ps G F IH]; intros H; [split; [constructor|reflexivity]|].
  destruct IH as [I1 I2]; [intros j' a I; apply H; now right|]. destruct (going_other m j p m' G) as [G1 G2]; [intros a; apply H; now left|].
  split; [constructor; assumption|]. cbn [costs]. rewrite G2, I2. reflexivity.
Qed.
Lemma costs_app : forall m js ks ps qs, length js = length ps -> costs m (js ++ ks) (ps ++ qs) = (costs m js ps + costs m ks qs)%nat.
Proof. intros m. induction js as [|j js IH]; intros ks [|p ps] qs L; try discriminate; [reflexivity|]. injection L as L. cbn [app costs]. rewrite IH by exact L. lia. Qed.
Lemma apart_app : forall js j ks, ForallOrdPairs compatible (js ++ j :: ks) -> (forall k, In k js -> compatible k j) /\ (forall k, In k ks -> compatible j k).
Proof.
  induction js as [|x js IH]; intros j ks H; cbn [app] in H; inversion H as [|y l F1 F2]; subst.
  - split; [intros k []|]. intros k I. rewrite Forall_forall in F1. now apply F1.
  - destruct (IH j ks F2) as [I1 I2]. split; [|exact I2]. intros k [<-|I]; [|now apply I1]. rewrite Forall_forall in F1. apply F1. apply in_or_app. right. now left.
Qed.

(** the invariant *)
Lemma schedule_going : forall jobs m n ps m', Forall (ready m) jobs -> ForallOrdPairs compatible jobs -> schedule n (map program jobs) m ps m' ->
  Forall2 (going m') jobs ps /\ (n + costs m' jobs ps = costs m jobs (map program jobs))%nat /\ (forall a, (forall j, In j jobs -> ~ printed_cell j a) -> m' a = m a).
Proof.
  intros jobs m n ps m' R C S. remember (map program jobs) as ps0. induction S as [ps m|n ps m before p after m1 q m2 S IH T].
  - subst ps. split; [|split; [reflexivity|reflexivity]]. clear C. induction R as [|j js R1 R IH]; cbn [map]; constructor; [now apply going_start|exact IH].
  - destruct (IH R Heqps0) as (F & N & O). apply Forall2_app_inv_r in F as (js1 & js2 & F1 & F2 & ->). inversion F2 as [|j p' js3 ps3 G F3 E1 E2]. subst js2 p' ps3.
    destruct (going_step _ _ _ _ _ G T) as (G1 & G2 & G3). destruct (apart_app _ _ _ C) as [C1 C2].
    assert (H1 : forall k a, In k js1 -> cell k a -> m2 a = m1 a) by (intros k a I K; apply G3; intros Q; destruct (C1 k I a) as [_ X]; apply X; split; assumption).
    assert (H3 : forall k a, In k js3 -> cell k a -> m2 a = m1 a) by (intros k a I K; apply G3; intros Q; destruct (C2 k I a) as [X _]; apply X; split; assumption).
    destruct (going_others _ _ _ _ F1 H1) as [F1' K1]. destruct (going_others _ _ _ _ F3 H3) as [F3' K3].
    split; [apply Forall2_app; [exact F1'|constructor; assumption]|]. split.
    + rewrite <- N. assert (L : length js1 = length before) by (clear - F1; induction F1; cbn [length]; congruence). rewrite !costs_app by exact L. cbn [costs]. rewrite K1, K3, <- G2. lia.
    + intros a H. rewrite G3 by (apply H, in_or_app; right; now left). apply O. exact H.
Qed.

(** C103: whatever the schedule, no thread ever touches a cell of another one or gets into
    undefined behaviour, a finished one has got what it would have got alone, and the cells no one prints to stay as they are *)
Theorem C103_any_schedule : forall jobs m n ps m', Forall (ready m) jobs -> ForallOrdPairs compatible jobs -> schedule n (map program jobs) m ps m' ->
  Forall2 (fun j p => (exists i, next p = Some i /\ cell j i) \/ (exists o, p = Done o /\ finished m' j o)) jobs ps /\
  (forall a, (forall j, In j jobs -> ~ printed_cell j a) -> m' a = m a).
Proof.
  intros jobs m n ps m' R C S. destruct (schedule_going _ _ _ _ _ R C S) as (F & _ & O). split; [|exact O]. clear R C S O.
  induction F as [|j p js ps (_ & fin & o & E & G) F IH]; constructor; [|exact IH]. destruct p as [a|f|i k|i c k]; cbn [exec next] in *.
  - right. injection E as E1 E2. subst. exists o. split; [reflexivity|]. destruct j as [t v a|t s a we fb fbp e]; cbn [good finished] in *; [|exact G].
    destruct G as [G1 G2]. split; [exact G1|]. apply slice_holds. rewrite app_length, Nat.add_comm. exact G2.
  - discriminate.
  - left. exists i. split; [reflexivity|]. destruct (read _ _) eqn:ER; [|discriminate]. apply cell_range. exact (proj1 (slice_read _ _ _ _ _ ER)).
  - left. exists i. split; [reflexivity|]. destruct (write _ _ _) eqn:ER; [|discriminate]. apply cell_range. exact (proj1 (slice_write _ _ _ _ _ _ ER)).
Qed.
(** C103: and every schedule comes to an end, at which all are finished: the number of accesses is bounded, and as long as a thread is not finished there is a next one *)
Theorem C103_ends : forall jobs m, Forall (ready m) jobs -> ForallOrdPairs compatible jobs -> exists total, forall n ps m', schedule n (map program jobs) m ps m' ->
  (n <= total)%nat /\ (n = total <-> Forall2 (fun j p => exists o, p = Done o /\ finished m' j o) jobs ps) /\
  (forall p, In p ps -> (exists o, p = Done o) \/ exists q m'', step p m' q m'').
Proof.
  intros jobs m R C. exists (costs m jobs (map program jobs)). intros n ps m' S. destruct (schedule_going _ _ _ _ _ R C S) as (F & N & _). destruct (C103_any_schedule _ _ _ _ _ R C S) as (D & _).
  split; [lia|]. split.
  - split.
    + intros E. assert (Z0 : costs m' jobs ps = O) by lia. clear N R C S E. induction D as [|j p js ps P D IH]; [constructor|]. inversion F as [|j' p' js' ps' G F' E1 E2]. subst. cbn [costs] in Z0.
      constructor; [|apply IH; [assumption|lia]]. destruct P as [(i & X & _)|P]; [|exact P]. exfalso. destruct G as (_ & fin & o & E & _).
      destruct p as [a|f|i' k|i' c k]; cbn [next exec cost] in *; try discriminate; [destruct (read _ _)|destruct (write _ _ _)]; discriminate.
    + intros A. enough (costs m' jobs ps = O) by lia. clear N D R C S F. induction A as [|j p js ps (o & -> & _) A IH]; [reflexivity|]. cbn [costs cost]. exact IH.
  - intros p I. clear N F R C S. induction D as [|j p' js ps P D IH]; [destruct I|]. destruct I as [->|I]; [|now apply IH].
    destruct P as [(i & X & _)|(o & -> & _)]; [|left; now exists o]. right. destruct p as [a|f|i' k|i' c k]; try discriminate; eexists; eexists; constructor.
Qed.
