(** * C71: the calibration function keeps track of what is evaluated and cancelled

    gen_funcs/persistent_surmise_calib.py; model in CalibModel, vocabulary in CalibSpec.
    Every emulator and calibrator (what they suggest is arbitrary) and every way in which
    results arrive. *)
From Verif Require Import Base BaseLemmas SamplerModel CalibModel CalibSpec.
Local Open Scope nat_scope.

Section Logs.
Context {V : Type}.
Implicit Types l : list (event V).
Lemma sent_rows_app l l' : sent_rows (l ++ l') = sent_rows l ++ sent_rows l'.
Proof. induction l as [|[r|i f|c i] l IH]; cbn; rewrite ?IH, ?app_assoc; reflexivity. Qed.
Lemma recorded_app l l' : recorded (l ++ l') = recorded l ++ recorded l'.
Proof. induction l as [|[r|i f|c i] l IH]; cbn; rewrite ?IH; reflexivity. Qed.
Lemma given_up_app l l' : given_up (l ++ l') = given_up l ++ given_up l'.
Proof. induction l as [|[r|i f|c i] l IH]; cbn; rewrite ?IH, ?app_assoc; reflexivity. Qed.
Lemma cancelled_app l l' : cancelled (l ++ l') = cancelled l ++ cancelled l'.
Proof. induction l as [|[r|i f|c i] l IH]; cbn; rewrite ?IH, ?app_assoc; reflexivity. Qed.
Lemma latest_app id (l l' : list (nat * V)) : latest id (l ++ l') = match latest id l' with Some g => Some g | None => latest id l end.
Proof.
  induction l as [|[i f] l IH]; cbn; [destruct (latest id l'); reflexivity|]. rewrite IH. destruct (latest id l'); reflexivity.
Qed.
Lemma latest_none id (l : list (nat * V)) : ~ In id (map fst l) -> latest id l = None.
Proof.
  induction l as [|[i f] l IH]; cbn; [reflexivity|]. intros h. rewrite IH by tauto.
  destruct (i =? id) eqn:E; [apply Nat.eqb_eq in E; tauto | reflexivity].
Qed.
Lemma snoc_split {A} (l before after : list A) a e : l ++ [a] = before ++ e :: after ->
  (after = [] /\ l = before /\ a = e) \/ exists after', after = after' ++ [a] /\ l = before ++ e :: after'.
Proof.
  destruct after as [|b after] using rev_ind; intros E.
  - apply app_inj_tail in E as [-> ->]. auto.
  - rewrite app_comm_cons, app_assoc in E. apply app_inj_tail in E as [-> ->]. right. eauto.
Qed.
End Logs.

Section Numbers.
Context (n_x : nat) (nx_pos : 0 < n_x).
Notation num := (number_of n_x).
Lemma cell_num r c : r < n_x -> cell n_x (num r c) = (r, c).
Proof.
  intros h. unfold cell, obs_offset, number_of. replace (n_x + c * n_x + r - n_x) with (r + c * n_x) by lia.
  rewrite Nat.mod_add, Nat.div_add, Nat.mod_small, Nat.div_small by lia. reflexivity.
Qed.
Lemma num_cell id : n_x <= id -> fst (cell n_x id) < n_x /\ num (fst (cell n_x id)) (snd (cell n_x id)) = id.
Proof.
  intros h. unfold cell, obs_offset, number_of. cbn [fst snd]. split; [apply Nat.mod_upper_bound; lia|].
  pose proof (Nat.div_mod (id - n_x) n_x ltac:(lia)) as E. rewrite (Nat.mul_comm n_x) in E. lia.
Qed.
Lemma num_inj r c r' c' : r < n_x -> r' < n_x -> num r c = num r' c' -> r = r' /\ c = c'.
Proof. intros h h' E. apply (f_equal (cell n_x)) in E. rewrite !cell_num in E by assumption. injection E as -> ->. auto. Qed.
Lemma num_lt r c k : r < n_x -> c < k -> num r c < n_x + n_x * k.
Proof. intros h h'. unfold number_of. nia. Qed.
Lemma num_lt_inv r c k : num r c < n_x + n_x * k -> c < k.
Proof. unfold number_of. intros h. nia. Qed.
End Numbers.

Section Calib.
Context {V : Type} (n_x n_init : nat) (suggest : nat -> nat * list nat) (nx_pos : 0 < n_x).
Variable f0 : list V.
Notation num := (number_of n_x).

(** What is true of the arrays all the time. *)
Definition value_due (s : calib V) r c : option V :=
  match latest (num r c) (recorded (log s)) with
  | Some g => Some g
  | None => if c <? n_init then nth_error f0 (r * n_init + c) else None
  end.
Definition fresh (before : list (event V)) r c : Prop :=
  n_init <= c /\ ~ In (num r c) (map fst (recorded before)) /\ ~ In c (given_up before).
Record Inv (s : calib V) : Prop := {
  i_cols : n_init <= cols s;
  i_len : length (sent_rows (log s)) = n_x + n_x * cols s;
  i_res : Forall (fun p => n_x <= fst p < n_x + n_x * cols s) (recorded (log s));
  i_gu : Forall (fun c => c < cols s) (given_up (log s));
  i_pend : forall r c, r < n_x -> c < cols s -> (pending s r c = true <-> fresh (log s) r c);
  i_comp : forall r c, r < n_x -> c < cols s -> (complete s r c = true <-> c < n_init \/ In (num r c) (map fst (recorded (log s))));
  i_fev : forall r c, r < n_x -> c < cols s -> fevals s r c = value_due s r c;
  i_log : forall before cs ids after, log s = before ++ GaveUp cs ids :: after ->
    NoDup ids /\ (forall id, In id ids <-> exists r c, r < n_x /\ In c cs /\ id = num r c /\ fresh before r c) /\
    Forall (fun id => id < length (sent_rows before)) ids;
  i_first : forall r c, r < n_x -> c < n_init -> nth_error (sent_rows (log s)) (n_x + (r * n_init + c)) = Some (r, c);
  i_rows : n_x = 1 \/ (forall k, fst (suggest k) <= 1) ->
    forall r c, r < n_x -> n_init <= c < cols s -> nth_error (sent_rows (log s)) (num r c) = Some (r, c) }.

Lemma load_H_length base k : length (load_H n_x base k) = n_x * k.
Proof.
  unfold load_H.
  assert (Z : forall n z, length (flat_map (fun i => map (fun t => (i, base + t)) (seq 0 k)) (seq z n)) = n * k).
  { clear. induction n as [|n IH]; intros z; cbn [seq flat_map]; [reflexivity|]. rewrite app_length, map_length, seq_length, IH. reflexivity. }
  apply Z.
Qed.
Lemma load_H_nth base k r t : r < n_x -> t < k -> nth_error (load_H n_x base k) (r * k + t) = Some (r, base + t).
Proof.
  intros h ht. unfold load_H. clear nx_pos.
  assert (Z : forall n z r, r < n -> nth_error (flat_map (fun i => map (fun t => (i, base + t)) (seq 0 k)) (seq z n)) (r * k + t) = Some (z + r, base + t)).
  { clear - ht. induction n as [|n IH]; intros z r h; [lia|]. cbn [seq flat_map]. destruct r as [|r].
    - cbn. rewrite nth_error_app1 by (rewrite map_length, seq_length; exact ht).
      rewrite nth_error_map, nth_error_nth' with (d := 0) by (rewrite seq_length; exact ht). rewrite seq_nth by exact ht. cbn. rewrite Nat.add_0_r. reflexivity.
    - rewrite nth_error_app2 by (rewrite map_length, seq_length; cbn; lia). rewrite map_length, seq_length.
      replace (S r * k + t - k) with (r * k + t) by (cbn; lia). rewrite IH by lia. f_equal. f_equal. lia. }
  rewrite (Z n_x 0 r h). reflexivity.
Qed.

Lemma create_inv tt s : create_arrays n_x n_init tt f0 = Ok s -> Inv s.
Proof.
  unfold create_arrays. destruct (length f0 =? n_x * n_init) eqn:E; [|discriminate]. apply Nat.eqb_eq in E. intros h. injection h as <-.
  assert (Lt : length (true_rows n_x tt) = n_x) by (unfold true_rows; rewrite map_length, seq_length; reflexivity).
  constructor; cbn [cols log pending complete fevals sent_rows recorded given_up app]; rewrite ?app_nil_r.
  - lia.
  - rewrite app_length, load_H_length. lia.
  - constructor.
  - constructor.
  - intros r c Hr Hc. unfold fresh. split; [discriminate|]. lia.
  - intros r c Hr Hc. replace (r <? n_x) with true by (symmetry; apply Nat.ltb_lt; exact Hr).
    replace (c <? n_init) with true by (symmetry; apply Nat.ltb_lt; exact Hc). cbn. intuition.
  - intros r c Hr Hc. unfold value_due. cbn [log recorded latest]. replace (r <? n_x) with true by (symmetry; apply Nat.ltb_lt; exact Hr). reflexivity.
  - intros before cs ids after h. destruct before as [|? [|? [|? ?]]]; discriminate.
  - intros r c Hr Hc. rewrite nth_error_app2 by lia. replace (n_x + (r * n_init + c) - length (true_rows n_x tt)) with (r * n_init + c) by lia.
    apply load_H_nth; assumption.
  - lia.
Qed.

Lemma pad_inv s k : Inv s -> (n_x = 1 \/ (forall j, fst (suggest j) <= 1) -> n_x = 1 \/ k <= 1) -> Inv (pad_arrays n_x s k).
Proof.
  intros I Hk. destruct I. unfold pad_arrays. constructor; cbn [cols log pending complete fevals];
    rewrite ?sent_rows_app, ?recorded_app, ?given_up_app; cbn [sent_rows recorded given_up app]; rewrite ?app_nil_r.
  - lia.
  - rewrite app_length, load_H_length, i_len0. lia.
  - eapply Forall_impl; [|exact i_res0]. cbn. intros p h. nia.
  - eapply Forall_impl; [|exact i_gu0]. cbn. lia.
  - intros r c Hr Hc. unfold fresh. rewrite recorded_app, given_up_app. cbn [recorded given_up]. rewrite !app_nil_r.
    destruct (c <? cols s) eqn:Ec; [apply Nat.ltb_lt in Ec; apply i_pend0; assumption|]. apply Nat.ltb_ge in Ec.
    replace (c <? cols s + k) with true by (symmetry; apply Nat.ltb_lt; exact Hc). split; [|reflexivity]. intros _. split; [lia|]. split.
    + intros h. apply in_map_iff in h as (p & Ep & h). rewrite Forall_forall in i_res0. specialize (i_res0 p h). rewrite Ep in i_res0.
      destruct i_res0 as [_ h1]. apply (num_lt_inv n_x nx_pos) in h1. lia.
    + intros h. rewrite Forall_forall in i_gu0. specialize (i_gu0 c h). cbn in i_gu0. lia.
  - intros r c Hr Hc. destruct (c <? cols s) eqn:Ec; [apply Nat.ltb_lt in Ec; apply i_comp0; assumption|]. apply Nat.ltb_ge in Ec.
    replace (c <? cols s + k) with true by (symmetry; apply Nat.ltb_lt; exact Hc). split; [discriminate|]. intros [h|h]; [lia|].
    apply in_map_iff in h as (p & Ep & h). rewrite Forall_forall in i_res0. specialize (i_res0 p h). rewrite Ep in i_res0.
    destruct i_res0 as [_ h1]. apply (num_lt_inv n_x nx_pos) in h1. lia.
  - intros r c Hr Hc. unfold value_due. cbn [log]. rewrite recorded_app. cbn [recorded]. rewrite app_nil_r.
    destruct (c <? cols s) eqn:Ec; [apply Nat.ltb_lt in Ec; apply i_fev0; assumption|]. apply Nat.ltb_ge in Ec.
    replace (c <? cols s + k) with true by (symmetry; apply Nat.ltb_lt; exact Hc).
    replace (c <? n_init) with false by (symmetry; apply Nat.ltb_ge; lia).
    rewrite latest_none; [reflexivity|]. intros h.
    apply in_map_iff in h as (p & Ep & h). rewrite Forall_forall in i_res0. specialize (i_res0 p h). rewrite Ep in i_res0.
    destruct i_res0 as [_ h1]. apply (num_lt_inv n_x nx_pos) in h1. lia.
  - intros before cs ids after h. apply snoc_split in h as [(_ & _ & h)|(a & -> & h)]; [discriminate|]. exact (i_log0 _ _ _ _ h).
  - intros r c Hr Hc. rewrite nth_error_app1; [apply i_first0; assumption|]. rewrite i_len0. nia.
  - intros Q r c Hr Hc. destruct (Nat.lt_ge_cases c (cols s)) as [h|h].
    + rewrite nth_error_app1; [apply i_rows0; auto; lia|]. rewrite i_len0. apply (num_lt n_x nx_pos); assumption.
    + rewrite nth_error_app2 by (rewrite i_len0; unfold number_of; nia). rewrite i_len0.
      destruct (Hk Q) as [e|e].
      * assert (r = 0) by lia. subst r. replace (num 0 c - (n_x + n_x * cols s)) with (0 * k + (c - cols s)) by (unfold number_of; nia).
        rewrite load_H_nth by lia. f_equal. f_equal. lia.
      * assert (c = cols s) by lia. subst c. assert (k = 1) by lia. subst k.
        replace (num r (cols s) - (n_x + n_x * cols s)) with (r * 1 + 0) by (unfold number_of; nia).
        rewrite load_H_nth by lia. f_equal. f_equal. lia.
Qed.

Lemma update_inv l : forall s s', Inv s -> Forall (fun p => n_x <= fst p) l -> update_arrays n_x s l = Ok s' ->
  Inv s' /\ cols s' = cols s /\ log s' = log s ++ map (fun p => Recorded (fst p) (snd p)) l.
Proof.
  induction l as [|[id f] l IH]; intros s s' I F E; cbn [update_arrays] in E.
  - injection E as <-. cbn. rewrite app_nil_r. auto.
  - inversion F as [|? ? Hid F']; subst. cbn [fst] in Hid.
    destruct (snd (cell n_x id) <? cols s) eqn:Ec; [|discriminate]. apply Nat.ltb_lt in Ec.
    destruct (num_cell n_x nx_pos id Hid) as [Hr Hn]. set (p := cell n_x id) in *.
    apply IH in E; [cbn [log cols] in E; destruct E as (A & B & C); split; [exact A|]; split; [exact B|]; rewrite C, <- app_assoc; reflexivity | | exact F'].
    clear IH E F F' l. destruct I.
    assert (Hit : forall r c, r < n_x -> (r =? fst p) && (c =? snd p) = true <-> num r c = id).
    { intros r c h. rewrite andb_true_iff, !Nat.eqb_eq. split; [intros [-> ->]; exact Hn|].
      intros e. rewrite <- Hn in e. apply (num_inj n_x nx_pos) in e; assumption. }
    constructor; cbn [cols log pending complete fevals]; rewrite ?sent_rows_app, ?recorded_app, ?given_up_app;
      cbn [sent_rows recorded given_up app]; rewrite ?app_nil_r; auto.
    + apply Forall_app. split; [exact i_res0|]. repeat constructor; cbn; [exact Hid|]. rewrite <- Hn. apply (num_lt n_x nx_pos); assumption.
    + intros r c Hr' Hc. unfold set, fresh. rewrite recorded_app, given_up_app, map_app. cbn [recorded given_up map fst]. rewrite app_nil_r.
      destruct ((r =? fst p) && (c =? snd p)) eqn:Eh.
      * apply Hit in Eh; [|exact Hr']. split; [discriminate|]. intros (_ & h & _). exfalso. apply h, in_or_app. right. cbn. auto.
      * rewrite (i_pend0 r c Hr' Hc). unfold fresh. split; intros (h1 & h2 & h3); (split; [exact h1|]; split; [|exact h3]).
        -- intros h. apply in_app_or in h as [h|[h|[]]]; [exact (h2 h)|]. symmetry in h. apply Hit in h; [congruence|exact Hr'].
        -- intros h. apply h2, in_or_app. auto.
    + intros r c Hr' Hc. unfold set. rewrite map_app. cbn [map fst].
      destruct ((r =? fst p) && (c =? snd p)) eqn:Eh.
      * apply Hit in Eh; [|exact Hr']. split; [|reflexivity]. intros _. right. apply in_or_app. right. cbn. auto.
      * rewrite (i_comp0 r c Hr' Hc). split; intros [h|h]; auto.
        -- right. apply in_or_app. auto.
        -- apply in_app_or in h as [h|[h|[]]]; [auto|]. symmetry in h. apply Hit in h; [congruence|exact Hr'].
    + intros r c Hr' Hc. unfold set, value_due. cbn [log]. rewrite recorded_app. cbn [recorded]. rewrite latest_app. cbn [latest].
      destruct ((r =? fst p) && (c =? snd p)) eqn:Eh.
      * apply Hit in Eh; [|exact Hr']. rewrite Eh, Nat.eqb_refl. reflexivity.
      * replace (id =? num r c) with false; [exact (i_fev0 r c Hr' Hc)|]. symmetry. apply Nat.eqb_neq. intros h. symmetry in h. apply Hit in h; [congruence|exact Hr'].
    + intros before cs ids after h. apply snoc_split in h as [(_ & _ & h)|(a & -> & h)]; [discriminate|]. exact (i_log0 _ _ _ _ h).
Qed.

Lemma in_to_cancel s obv id : Inv s -> Forall (fun c => c < cols s) obv ->
  In id (to_cancel n_x s obv) <-> exists r c, r < n_x /\ In c obv /\ id = num r c /\ fresh (log s) r c.
Proof.
  intros I F. unfold to_cancel. rewrite in_flat_map. split.
  - intros (c & h & h1). apply filter_In in h as [h h2]. apply in_seq in h. apply memb_In in h2.
    apply in_map_iff in h1 as (r & <- & h1). apply filter_In in h1 as [h1 h3]. apply in_seq in h1.
    exists r, c. split; [lia|]. split; [exact h2|]. split; [unfold number_of, obs_offset; reflexivity|]. apply (i_pend s I); [lia | lia | exact h3].
  - intros (r & c & Hr & Hc & -> & h). rewrite Forall_forall in F. pose proof (F c Hc) as Hc'. cbn in Hc'. exists c. split.
    + apply filter_In. split; [apply in_seq; lia | apply memb_In; exact Hc].
    + apply in_map_iff. exists r. split; [reflexivity|]. apply filter_In. split; [apply in_seq; lia|]. apply (i_pend s I); auto.
Qed.
Lemma NoDup_to_cancel (s : calib V) obv : NoDup (to_cancel n_x s obv).
Proof.
  unfold to_cancel. assert (N : NoDup (filter (fun c => memb c obv) (seq 0 (cols s)))) by (apply NoDup_filter, seq_NoDup).
  revert N. generalize (filter (fun c => memb c obv) (seq 0 (cols s))) as cs. intros cs N.
  induction N as [|c cs Nc N IH]; cbn [flat_map]; [constructor|].
  assert (M : forall l, NoDup l -> NoDup (map (fun i => obs_offset n_x + c * n_x + i) l)).
  { clear. induction 1 as [|a l h h1 IH]; cbn; constructor; [|exact IH]. intros q. apply in_map_iff in q as (b & e & q). assert (a = b) by lia. congruence. }
  assert (D : forall id, In id (map (fun i => obs_offset n_x + c * n_x + i) (filter (fun i => pending s i c) (seq 0 n_x))) ->
     ~ In id (flat_map (fun c => map (fun i => obs_offset n_x + c * n_x + i) (filter (fun i => pending s i c) (seq 0 n_x))) cs)).
  { intros id h1 h2. apply in_map_iff in h1 as (r & <- & h1). apply filter_In in h1 as [h1 _]. apply in_seq in h1.
    apply in_flat_map in h2 as (c' & Hc' & h2). apply in_map_iff in h2 as (r' & e & h2). apply filter_In in h2 as [h2 _]. apply in_seq in h2.
    apply Nc. enough (c = c') by congruence. symmetry. apply (num_inj n_x nx_pos r' c' r c); [lia | lia | exact e]. }
  pose proof (M _ (NoDup_filter (fun i => pending s i c) (seq_NoDup n_x 0))) as M1. clear N.
  induction (map (fun i => obs_offset n_x + c * n_x + i) (filter (fun i => pending s i c) (seq 0 n_x))) as [|a l IHl]; [exact IH|].
  inversion M1; subst. cbn. constructor.
  - intros h. apply in_app_or in h as [h|h]; [contradiction|]. exact (D a (or_introl eq_refl) h).
  - apply IHl; [intros id h; apply D; cbn; auto | assumption].
Qed.
Lemma give_up_inv s obv : Inv s -> Forall (fun c => c < cols s) obv -> Inv (give_up n_x s obv).
Proof.
  intros I F. pose proof (in_to_cancel s obv) as TC. pose proof I as I0. destruct I.
  constructor; cbn [give_up cols log pending complete fevals]; rewrite ?sent_rows_app, ?recorded_app, ?given_up_app;
      cbn [sent_rows recorded given_up app]; rewrite ?app_nil_r; auto.
  - apply Forall_app. auto.
  - intros r c Hr Hc. unfold fresh. rewrite recorded_app, given_up_app. cbn [recorded given_up]. rewrite !app_nil_r.
    rewrite andb_true_iff, negb_true_iff, (i_pend0 r c Hr Hc). unfold fresh. split.
    + intros [(h1 & h2 & h3) h4]. split; [exact h1|]. split; [exact h2|]. intros h. apply in_app_or in h as [h|h]; [exact (h3 h)|]. apply memb_In in h. congruence.
    + intros (h1 & h2 & h3). split; [split; [exact h1|]; split; [exact h2|]; intros h; apply h3, in_or_app; auto|].
      destruct (memb c obv) eqn:Em; [|reflexivity]. apply memb_In in Em. exfalso. apply h3, in_or_app. auto.
  - intros r c Hr Hc. unfold value_due. cbn [log give_up]. rewrite recorded_app. cbn [recorded]. rewrite app_nil_r. apply i_fev0; assumption.
  - intros before cs ids after h. apply snoc_split in h as [(_ & <- & h)|(a & -> & h)]; [|exact (i_log0 _ _ _ _ h)].
    injection h as <- <-. split; [apply NoDup_to_cancel|]. split; [intros id; apply TC; assumption|].
    apply Forall_forall. intros id h. apply TC in h; auto. destruct h as (r & c & Hr & Hc & -> & _). rewrite i_len0. apply (num_lt n_x nx_pos); [exact Hr|].
    rewrite Forall_forall in F. exact (F c Hc).
Qed.
Lemma rebuilt_inv s : Inv s -> Inv (rebuilt s).
Proof. intros []. constructor; auto. Qed.

(** Along a run. *)
Definition OkIds (o : outcome V) : Prop :=
  match o with Next c => Forall (fun p => n_x <= fst p) (calc_in c) /\ later_ids n_x (inbox c) | _ => True end.
Definition InvO (o : outcome V) : Prop := (forall s, state_of o = Some s -> Inv s) /\ OkIds o.

Lemma rows_ok m ms : later_ids n_x (m :: ms) -> Forall (fun p => n_x <= fst p) (match rows m with Some l => l | None => [] end : list (nat * V)) /\ later_ids n_x ms.
Proof. intros h. inversion h as [|? ? h1 h2]; subst. split; [|exact h2]. destruct (rows m) as [l|]; [exact (h1 l eq_refl) | constructor]. Qed.
Lemma select_ok c : Inv (arrays c) -> OkIds (Next c) -> InvO (select n_x suggest c).
Proof.
  intros I [O1 O2]. unfold select. destruct (select_condition n_x (arrays c)).
  - destruct (suggest (selections c)) as [k obv] eqn:Es.
    assert (I1 : Inv (pad_arrays n_x (arrays c) k)).
    { apply pad_inv; [exact I|]. intros [h|h]; [auto|]. right. specialize (h (selections c)). rewrite Es in h. exact h. }
    destruct (inbox c) as [|m ms]; [split; [intros s h; injection h as <-; exact I1 | exact Logic.I]|].
    destruct (forallb _ obv) eqn:Ef; [|split; [discriminate | exact Logic.I]].
    assert (F : Forall (fun col => col < cols (pad_arrays n_x (arrays c) k)) obv).
    { apply Forall_forall. intros x h. rewrite forallb_forall in Ef. apply Nat.ltb_lt, Ef, h. }
    pose proof (give_up_inv _ _ I1 F) as I2. apply rows_ok in O2 as [O3 O4].
    destruct (stops m); (split; [intros s h; injection h as <-; exact I2|]); [exact Logic.I | split; assumption].
  - split; [intros s h; injection h as <-; exact I | split; assumption].
Qed.
Lemma reaches_ok tt ms o : later_ids n_x ms -> Reaches n_x n_init suggest tt f0 ms o -> InvO o.
Proof.
  intros L. induction 1 as [|c R [IH1 IH2]].
  - unfold first. destruct (create_arrays n_x n_init tt f0) as [s|e] eqn:E; [|split; [discriminate | exact Logic.I]].
    apply select_ok; [exact (create_inv tt s E) | split; [constructor | exact L]].
  - unfold pass. specialize (IH1 _ eq_refl). destruct IH2 as [O1 O2].
    destruct (update_arrays n_x (arrays c) (calc_in c)) as [s1|e] eqn:E; [|split; [discriminate | exact Logic.I]].
    destruct (update_inv _ _ _ IH1 O1 E) as (I1 & _ & _).
    destruct (rebuild_condition n_x s1).
    + apply select_ok; [apply rebuilt_inv; exact I1 | split; assumption].
    + destruct (inbox c) as [|m ms']; [split; [intros s h; injection h as <-; exact I1 | exact Logic.I]|].
      apply rows_ok in O2 as [O3 O4].
      destruct (stops m); [split; [intros s h; injection h as <-; exact I1 | exact Logic.I]|]. apply select_ok; [exact I1 | split; assumption].
Qed.
End Calib.

(** ** The theorems *)
(** The cells of the arrays and the numbers of the rows sent after the first [n_x] belong
    together one to one: [number_of]. For each cell the arrays say exactly what happened:
    complete, if the cell is of the first batch or a result for its number was recorded;
    pending, if it is not of the first batch, no result was recorded and its column was
    not given up; the value is the last one recorded for the number, or that of the first
    batch. *)
Theorem C71_arrays_are_right {V} n_x n_init suggest tt (f0 : list V) ms o s :
  0 < n_x -> later_ids n_x ms -> Reaches n_x n_init suggest tt f0 ms o -> state_of o = Some s ->
  length (sent_rows (log s)) = n_x + n_x * cols s /\
  (forall id, n_x <= id < length (sent_rows (log s)) -> exists! p, fst p < n_x /\ snd p < cols s /\ number_of n_x (fst p) (snd p) = id) /\
  forall r c, r < n_x -> c < cols s ->
    let id := number_of n_x r c in
    (complete s r c = true <-> c < n_init \/ In id (map fst (recorded (log s)))) /\
    (pending s r c = true <-> n_init <= c /\ ~ In id (map fst (recorded (log s))) /\ ~ In c (given_up (log s))) /\
    fevals s r c = match latest id (recorded (log s)) with
                   | Some g => Some g
                   | None => if c <? n_init then nth_error f0 (r * n_init + c) else None
                   end.
Proof.
  intros P L R E. destruct (reaches_ok n_x n_init suggest P f0 tt ms o L R) as [I _]. specialize (I s E).
  split; [apply (i_len _ _ _ _ _ I)|]. split.
  - rewrite (i_len _ _ _ _ _ I). intros id Hid. destruct (num_cell n_x P id ltac:(lia)) as [A B]. exists (cell n_x id). split.
    + split; [exact A|]. split; [|exact B]. rewrite <- B in Hid. apply (num_lt_inv n_x P (fst (cell n_x id))). lia.
    + intros [r c] (h1 & h2 & h3). cbn [fst snd] in *. rewrite <- h3. apply cell_num; assumption.
  - intros r c Hr Hc id. split; [apply (i_comp _ _ _ _ _ I); assumption|]. split; [apply (i_pend _ _ _ _ _ I); assumption|].
    apply (i_fev _ _ _ _ _ I); assumption.
Qed.
Print Assumptions C71_arrays_are_right.

(** When columns are given up, cancellation is asked for exactly the numbers of these
    columns for which no result was recorded and that were not given up before; each
    number has been sent, and is cancelled once in the whole run. *)
Theorem C71_cancellations {V} n_x n_init suggest tt (f0 : list V) ms o s :
  0 < n_x -> later_ids n_x ms -> Reaches n_x n_init suggest tt f0 ms o -> state_of o = Some s ->
  NoDup (cancelled (log s)) /\
  forall before columns ids after, log s = before ++ GaveUp columns ids :: after ->
    Forall (fun id => id < length (sent_rows before)) ids /\
    forall id, In id ids <-> exists r c, r < n_x /\ In c columns /\ id = number_of n_x r c /\
      n_init <= c /\ ~ In id (map fst (recorded before)) /\ ~ In c (given_up before).
Proof.
  intros P L R E. destruct (reaches_ok n_x n_init suggest P f0 tt ms o L R) as [I _]. specialize (I s E).
  pose proof (i_log _ _ _ _ _ I) as Q. split.
  - revert Q. generalize (log s) as l. clear I E R. induction l as [|e l IH] using rev_ind; intros Q; [constructor|].
    assert (IH1 : NoDup (cancelled l)).
    { apply IH. intros before cs ids after h. apply (Q before cs ids (after ++ [e])). rewrite h, <- app_assoc. reflexivity. }
    rewrite cancelled_app. destruct e as [r|i f|cs ids]; cbn [cancelled]; rewrite ?app_nil_r; try exact IH1.
    destruct (Q l cs ids [] eq_refl) as (N & h & _).
    assert (D : forall id, In id (cancelled l) -> ~ In id ids).
    { intros id h1 h2. apply h in h2 as (r & c & Hr & Hc & -> & h3). destruct h3 as (_ & _ & h4). apply h4.
      assert (Z : forall l0 l1, l = l0 ++ l1 -> In (number_of n_x r c) (cancelled l0) -> In c (given_up l0)).
      { induction l0 as [|e0 l0 IH0] using rev_ind; intros l1 El Hi; [destruct Hi|].
        rewrite <- app_assoc in El. rewrite cancelled_app in Hi. rewrite given_up_app. apply in_or_app. apply in_app_or in Hi as [Hi|Hi]; [left; exact (IH0 _ El Hi)|].
        destruct e0 as [r0|i0 g0|cs0 ids0]; cbn in Hi; [destruct Hi | destruct Hi |]. rewrite app_nil_r in Hi. right. cbn. rewrite app_nil_r.
        destruct (Q l0 cs0 ids0 (l1 ++ [GaveUp cs ids])) as (_ & q & _); [rewrite El, <- app_assoc; reflexivity|].
        apply q in Hi as (r1 & c1 & Hr1 & Hc1 & e1 & _). apply num_inj in e1 as [_ ->]; assumption. }
      exact (Z l [] (eq_sym (app_nil_r l)) h1). }
    clear - IH1 N D. induction (cancelled l) as [|a m IHm]; [exact N|]. inversion IH1; subst. cbn. constructor.
    + intros h. apply in_app_or in h as [h|h]; [contradiction|]. exact (D a (or_introl eq_refl) h).
    + apply IHm; [assumption|]. intros id h. apply D. cbn. auto.
  - intros before cs ids after h. destruct (Q _ _ _ _ h) as (_ & q1 & q2). split; [exact q2|]. intros id. rewrite (q1 id).
    split; intros (r & c & A & B & -> & C); exists r, c; unfold fresh in *; auto.
Qed.
Print Assumptions C71_cancellations.

(** The first batch's values are in the cells of the place and the parameter they were
    computed for; so are later ones, if there is one place, or never more than one
    parameter is added at a time. *)
Theorem C71_values_in_their_cells {V} n_x n_init suggest tt (f0 : list V) ms o s :
  0 < n_x -> later_ids n_x ms -> Reaches n_x n_init suggest tt f0 ms o -> state_of o = Some s ->
  (forall r c, r < n_x -> c < n_init -> nth_error (sent_rows (log s)) (n_x + (r * n_init + c)) = Some (r, c)) /\
  (n_x = 1 \/ (forall k, fst (suggest k) <= 1) ->
   forall r c, r < n_x -> n_init <= c < cols s -> nth_error (sent_rows (log s)) (number_of n_x r c) = Some (r, c)).
Proof.
  intros P L R E. destruct (reaches_ok n_x n_init suggest P f0 tt ms o L R) as [I _]. specialize (I s E).
  split; [exact (i_first _ _ _ _ _ I) | exact (i_rows _ _ _ _ _ I)].
Qed.
Print Assumptions C71_values_in_their_cells.

(** The results at hand are those of the message read last, and each pass records exactly
    the results at hand: only what a pass reads before another message can be lost. *)
Definition last_results {V} (read : list (mail (nat * V))) : list (nat * V) :=
  match rev read with [] => [] | m :: _ => match rows m with Some l => l | None => [] end end.
Theorem C71_results_at_hand {V} n_x n_init suggest tt (f0 : list V) ms c :
  Reaches n_x n_init suggest tt f0 ms (Next c) ->
  (exists read, ms = read ++ inbox c /\ calc_in c = last_results read) /\
  (forall s, state_of (pass n_x suggest c) = Some s -> recorded (log s) = recorded (log (arrays c)) ++ calc_in c).
Proof.
  assert (RA : forall l l' : list (event V), recorded (l ++ l') = recorded l ++ recorded l').
  { induction l as [|[] l IH]; intros l'; cbn; rewrite ?IH; reflexivity. }
  assert (U : forall l (s s1 : calib V), update_arrays n_x s l = Ok s1 -> recorded (log s1) = recorded (log s) ++ l).
  { induction l as [|[i f] l IH]; intros s s1 E; cbn [update_arrays] in E.
    - injection E as <-. rewrite app_nil_r. reflexivity.
    - destruct (snd (cell n_x i) <? cols s); [|discriminate]. apply IH in E. cbn [log] in E. rewrite E, RA. cbn. rewrite <- app_assoc. reflexivity. }
  assert (Sel : forall (c : config V) s, state_of (select n_x suggest c) = Some s -> recorded (log s) = recorded (log (arrays c))).
  { intros c0 s E. unfold select in E. destruct (select_condition n_x (arrays c0)).
    - destruct (suggest (selections c0)) as [k obv]. destruct (inbox c0) as [|m ms0].
      + cbn [state_of] in E. injection E as <-. cbn [pad_arrays log]. rewrite RA. cbn. apply app_nil_r.
      + destruct (forallb _ obv); [|discriminate].
        destruct (stops m); cbn [state_of arrays] in E; injection E as <-; cbn [give_up pad_arrays log]; rewrite !RA; cbn; rewrite !app_nil_r; reflexivity.
    - cbn [state_of] in E. injection E as <-. reflexivity. }
  assert (LR : forall read m, @last_results V (read ++ [m]) = match rows m with Some l => l | None => [] end).
  { intros read m. unfold last_results. rewrite rev_app_distr. reflexivity. }
  set (Q := fun c : config V => exists read, ms = read ++ inbox c /\ calc_in c = last_results read).
  assert (SelQ : forall c c' : config V, Q c -> select n_x suggest c = Next c' -> Q c').
  { intros c0 c' (read & E1 & E2) E. unfold select in E. destruct (select_condition n_x (arrays c0)).
    - destruct (suggest (selections c0)) as [k obv]. destruct (inbox c0) as [|m ms0]; [discriminate|].
      destruct (forallb _ obv); [|discriminate]. destruct (stops m); [discriminate|]. injection E as <-.
      exists (read ++ [m]). cbn [inbox calc_in]. rewrite LR, <- app_assoc. auto.
    - injection E as <-. exists read. auto. }
  intros R. split.
  - change (Q c). remember (Next c) as o eqn:Eo. revert c Eo. induction R as [|c0 R IH]; intros c Eo.
    + unfold first in Eo. destruct (create_arrays n_x n_init tt f0) as [s|]; [|discriminate].
      eapply SelQ; [|exact Eo]. exists []. auto.
    + specialize (IH c0 eq_refl). unfold pass in Eo. destruct (update_arrays n_x (arrays c0) (calc_in c0)) as [s1|]; [|discriminate].
      destruct (rebuild_condition n_x s1).
      * eapply SelQ; [|exact Eo]. exact IH.
      * destruct IH as (read & E1 & E2). destruct (inbox c0) as [|m ms0]; [discriminate|]. destruct (stops m); [discriminate|].
        eapply SelQ; [|exact Eo]. exists (read ++ [m]). cbn [inbox calc_in]. rewrite LR, <- app_assoc. auto.
  - intros s E. unfold pass in E. destruct (update_arrays n_x (arrays c) (calc_in c)) as [s1|] eqn:Eu; [|discriminate].
    apply U in Eu. destruct (rebuild_condition n_x s1).
    + apply Sel in E. cbn [arrays rebuilt log] in E. congruence.
    + destruct (inbox c) as [|m ms0]; [cbn in E; injection E as <-; exact Eu|].
      destruct (stops m); [cbn in E; injection E as <-; exact Eu|]. apply Sel in E. cbn [arrays] in E. congruence.
Qed.
Print Assumptions C71_results_at_hand.

(** The loop raises only if the first batch has a wrong number of values, a result comes
    for a row not sent yet, or a column is suggested that does not exist yet. *)
Theorem C71_raises_only {V} n_x n_init suggest tt (f0 : list V) ms e :
  0 < n_x -> later_ids n_x ms -> Reaches n_x n_init suggest tt f0 ms (Raises e) ->
  length f0 <> n_x * n_init \/
  (exists k col, In col (snd (suggest k)) /\ n_init + added suggest (S k) <= col) \/
  (exists c p, Reaches n_x n_init suggest tt f0 ms (Next c) /\ In p (calc_in c) /\
               length (sent_rows (log (arrays c))) <= fst p).
Proof.
  intros P L R.
  set (A (c : config V) := cols (arrays c) = n_init + added suggest (selections c)).
  assert (Sel : forall c, A c -> select n_x suggest c = Raises e ->
    exists k col, In col (snd (suggest k)) /\ n_init + added suggest (S k) <= col).
  { intros c I E. unfold select in E. destruct (select_condition n_x (arrays c)); [|discriminate].
    destruct (suggest (selections c)) as [k obv] eqn:Es. destruct (inbox c) as [|m ms']; [discriminate|].
    destruct (forallb _ obv) eqn:Ef; [destruct (stops m); discriminate|].
    exists (selections c). cbn [added]. rewrite Es. cbn [fst snd]. rewrite Nat.add_assoc, <- I.
    clear - Ef. induction obv as [|a obv IH]; cbn in Ef; [discriminate|]. apply andb_false_iff in Ef as [h|h].
    - apply Nat.ltb_ge in h. exists a. cbn in *. auto.
    - destruct (IH h) as (col & h1 & h2). exists col. cbn. auto. }
  assert (Sn : forall c0 c, A c0 -> select n_x suggest c0 = Next c -> A c).
  { intros c0 c I E. unfold select in E. destruct (select_condition n_x (arrays c0)); [|injection E as <-; exact I].
    destruct (suggest (selections c0)) as [k obv] eqn:Es. destruct (inbox c0) as [|m ms']; [discriminate|].
    destruct (forallb _ obv); [|discriminate]. destruct (stops m); [discriminate|]. injection E as <-.
    unfold A in *. cbn [arrays selections give_up pad_arrays cols added]. rewrite Es, I. cbn [fst]. lia. }
  assert (Up : forall l (s s' : calib V), update_arrays n_x s l = Ok s' -> cols s' = cols s).
  { clear. induction l as [|[id f] l IH]; intros s s' E; cbn [update_arrays] in E; [congruence|].
    destruct (snd (cell n_x id) <? cols s); [|discriminate]. apply IH in E. exact E. }
  assert (At : forall o, Reaches n_x n_init suggest tt f0 ms o -> forall c, o = Next c -> A c).
  { induction 1 as [|c R' IH]; intros c1 E1.
    - unfold first in E1. destruct (create_arrays n_x n_init tt f0) as [s|] eqn:Es; [|discriminate].
      apply Sn in E1; [exact E1|]. unfold A. cbn [arrays selections added]. unfold create_arrays in Es. destruct (length f0 =? n_x * n_init); [|discriminate].
      injection Es as <-. cbn. lia.
    - specialize (IH c eq_refl). unfold pass in E1. destruct (update_arrays n_x (arrays c) (calc_in c)) as [s1|] eqn:Eu; [|discriminate].
      apply Up in Eu.
      destruct (rebuild_condition n_x s1); [apply Sn in E1; [exact E1|]; unfold A in *; cbn [arrays selections rebuilt cols]; congruence|].
      destruct (inbox c) as [|m ms']; [discriminate|]. destruct (stops m); [discriminate|].
      apply Sn in E1; [exact E1|]. unfold A in *; cbn [arrays selections]; congruence. }
  inversion R as [E|c R' E].
  - unfold first in E. destruct (create_arrays n_x n_init tt f0) as [s|] eqn:Es.
    + right. left. apply (Sel _) in E; [exact E|]. unfold A. cbn [arrays selections added]. unfold create_arrays in Es. destruct (length f0 =? n_x * n_init); [|discriminate].
      injection Es as <-. cbn. lia.
    + left. unfold create_arrays in Es. destruct (length f0 =? n_x * n_init) eqn:El; [discriminate|]. apply Nat.eqb_neq. exact El.
  - right. destruct (reaches_ok n_x n_init suggest P f0 tt ms _ L R') as [I [O1 O2]]. specialize (I _ eq_refl). cbn [arrays] in I.
    pose proof (At _ R' c eq_refl) as Ac. unfold pass in E.
    destruct (update_arrays n_x (arrays c) (calc_in c)) as [s1|e1] eqn:Eu.
    + left. apply Up in Eu. destruct (rebuild_condition n_x s1).
      * apply (Sel _) in E; [exact E|]. unfold A in *. cbn [arrays selections rebuilt cols]. congruence.
      * destruct (inbox c) as [|m ms']; [discriminate|]. destruct (stops m); [discriminate|].
        apply (Sel _) in E; [exact E|]. unfold A in *. cbn [arrays selections]. congruence.
    + right. exists c.
      assert (X : exists p, In p (calc_in c) /\ n_x + n_x * cols (arrays c) <= fst p).
      { clear - Eu P O1. revert Eu O1. generalize (arrays c). induction (calc_in c) as [|[id f] l IH]; intros s Eu O1; cbn [update_arrays] in Eu; [discriminate|].
        inversion O1 as [|? ? h1 h2]; subst. destruct (snd (cell n_x id) <? cols s) eqn:Ec.
        - apply IH in Eu; [|exact h2]. cbn [cols] in Eu. destruct Eu as (p & h3 & h4). exists p. cbn. auto.
        - apply Nat.ltb_ge in Ec. exists (id, f). split; [cbn; auto|]. cbn [fst] in *. destruct (num_cell n_x P id h1) as [_ q].
          rewrite <- q. unfold number_of. nia. }
      destruct X as (p & h1 & h2). exists p. rewrite (i_len _ _ _ _ _ I). auto.
Qed.
Print Assumptions C71_raises_only.

(** ** A run, and what is not true *)
Fixpoint passes {V} n_x suggest (n : nat) (o : outcome V) : outcome V :=
  match n, o with S n', Next c => passes n_x suggest n' (pass n_x suggest c) | _, _ => o end.
Lemma reaches_passes {V} n_x n_init suggest tt (f0 : list V) ms n :
  Reaches n_x n_init suggest tt f0 ms (passes n_x suggest n (first n_x n_init suggest tt f0 ms)).
Proof.
  assert (K : forall n o, Reaches n_x n_init suggest tt f0 ms o -> Reaches n_x n_init suggest tt f0 ms (passes n_x suggest n o)).
  { clear. induction n as [|n IH]; intros o R; [exact R|]. destruct o as [c|s|s|e]; cbn [passes]; try exact R. apply IH, reaches_pass, R. }
  apply K, reaches_first.
Qed.
Ltac ids_ok := unfold later_ids; repeat (apply Forall_cons; [intros ? q; first [discriminate q | injection q as <-; repeat constructor]|]); apply Forall_nil.
Ltac run n_x n_init suggest tt f0 ms n R :=
  let o := eval vm_compute in (passes n_x suggest n (first n_x n_init suggest tt f0 ms)) in
  assert (R : Reaches n_x n_init suggest tt f0 ms o) by exact (reaches_passes n_x n_init suggest tt f0 ms n).
Definition adds6 (k : nat) : nat * list nat := (6, if k =? 0 then [] else [1]).
Example C71_nonvacuous :
  let ms := [Go [(2, 7)]; Go [(3, 8)]; Go [(4, 9); (5, 9)]] in
  later_ids 1 ms /\
  exists c, Reaches 1 1 adds6 0 [5] ms (Next c) /\ cols (arrays c) = 13 /\
    recorded (log (arrays c)) = [(2, 7)] /\ given_up (log (arrays c)) = [1] /\ cancelled (log (arrays c)) = [] /\
    map (fun i => pending (arrays c) 0 i) (seq 0 4) = [false; false; true; true] /\
    map (fun i => fevals (arrays c) 0 i) (seq 0 3) = [Some 5; Some 7; None].
Proof.
  split; [repeat constructor; cbn; intros l h; injection h as <-; repeat constructor|].
  run 1 1 adds6 0 [5] [Go [(2, 7)]; Go [(3, 8)]; Go [(4, 9); (5, 9)]] 1 R.
  eexists. split; [exact R|]. vm_compute. auto 10.
Qed.

(** With two places and two parameters added at once, a value is recorded in the cell of
    another place and parameter than it was computed for: rows are sent place by place,
    but read parameter by parameter. *)
Theorem C71_values_in_their_cells_refuted :
  ~ (forall n_x n_init suggest tt (f0 : list nat) ms o s, 0 < n_x -> later_ids n_x ms ->
      Reaches n_x n_init suggest tt f0 ms o -> state_of o = Some s ->
      forall id f r c, recorded (log s) = [(id, f)] -> nth_error (sent_rows (log s)) id = Some (r, c) -> fevals s r c = Some f).
Proof.
  intros h.
  specialize (h 2 1 (fun _ => (6, [])) 99 [1; 2] [Go [(5, 7)]]).
  run 2 1 (fun _ : nat => (6, @nil nat)) 99 [1; 2] [Go [(5, 7)]] 1 R.
  specialize (h _ _ ltac:(lia) ltac:(ids_ok) R eq_refl 5 7 0 2).
  vm_compute in h. specialize (h eq_refl eq_refl). discriminate.
Qed.
Print Assumptions C71_values_in_their_cells_refuted.
(** A result is lost: a message read while no more results were needed for the next model
    is replaced by the one read after new parameters are sent. *)
Theorem C71_every_result_recorded_refuted :
  ~ (forall n_x n_init suggest tt (f0 : list nat) ms s, 0 < n_x -> later_ids n_x ms ->
      Reaches n_x n_init suggest tt f0 ms (Ended s) ->
      forall before l after, ms = before ++ Go l :: after -> (exists m, In m after /\ stops m = true) ->
      (exists l', In (Go l') after) ->
      forall p, In p l -> In p (recorded (log s))).
Proof.
  intros h.
  pose (ms := [Go [(2, 7)]; Go [(3, 8)]; Go [(4, 9)]; Stop]).
  run 1 1 (fun _ : nat => (6, @nil nat)) 99 [1] ms 2 R.
  specialize (h 1 1 (fun _ => (6, [])) 99 [1] ms _ ltac:(lia) ltac:(ids_ok) R
                [Go [(2, 7)]] [(3, 8)] [Go [(4, 9)]; Stop] eq_refl).
  specialize (h ltac:(exists Stop; cbn; auto) ltac:(exists [(4, 9)]; cbn; auto) (3, 8) ltac:(cbn; auto)).
  vm_compute in h. intuition discriminate.
Qed.
Print Assumptions C71_every_result_recorded_refuted.
(** Cancellation is asked for a number whose result is at hand. *)
Theorem C71_cancelled_not_returned_refuted :
  ~ (forall n_x n_init suggest tt (f0 : list nat) ms c, 0 < n_x -> later_ids n_x ms ->
      Reaches n_x n_init suggest tt f0 ms (Next c) -> forall p, In p (calc_in c) -> ~ In (fst p) (cancelled (log (arrays c)))).
Proof.
  intros h.
  pose (ms := [Go [(3, 7)]; Go [(4, 8)]; Go [(2, 9)]]).
  run 1 1 adds6 99 [1] ms 1 R.
  specialize (h 1 1 adds6 99 [1] ms _ ltac:(lia) ltac:(ids_ok) R (2, 9)).
  vm_compute in h. apply h; auto.
Qed.
Print Assumptions C71_cancelled_not_returned_refuted.
