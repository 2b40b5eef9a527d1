(** Proofs for the MPI arithmetic. *)
From Coq Require Import String.
From Verif Require Import Base RsetModel MpiModel MpiSpec.
Local Notation length := List.length.
Local Open Scope Z_scope.

Lemma norm_cases x : (norm x = None /\ ~ isset x) \/ (exists z, norm x = Some z /\ x = Some z /\ z <> 0).
Proof.
  unfold norm, isset. destruct x as [[|q|q]|].
  - left. split; [reflexivity|]. intros (z & E & H). congruence.
  - right. exists (Z.pos q). repeat split. discriminate.
  - right. exists (Z.neg q). repeat split. discriminate.
  - left. split; [reflexivity|]. intros (z & E & _). discriminate.
Qed.
Lemma honours_not x v : ~ isset x -> honours x v.
Proof. intros H z E Hz. exfalso. apply H. now exists z. Qed.
Lemma honours_set z v : z <> 0 -> honours (Some z) v <-> v = z.
Proof. intros H. split; [intros Hh; now apply Hh|]. intros -> x E _. congruence. Qed.
Lemma isset_some z : z <> 0 -> isset (Some z).
Proof. intros H. now exists z. Qed.
Lemma given_spec x : given x = true <-> isset x.
Proof.
  unfold given. destruct (norm_cases x) as [(E & H)|(z & E & -> & H)]; rewrite E.
  - split; [discriminate|tauto].
  - split; [intros _; now exists z|reflexivity].
Qed.
Lemma given_false x : given x = false <-> ~ isset x.
Proof. rewrite <- given_spec. destruct (given x); split; intros H; [discriminate|elim H; reflexivity|discriminate|reflexivity]. Qed.
Lemma given_some z : z <> 0 -> given (Some z) = true.
Proof. intros H. apply given_spec. now exists z. Qed.

Lemma checked_spec p n k t : checked p n k = Ok t <-> t = (p, n, k) /\ p = n * k.
Proof. unfold checked. destruct (Z.eqb_spec p (n * k)); split; [intros E; injection E as <-; auto|intros (-> & _); auto|discriminate|intros (_ & H); contradiction]. Qed.

Lemma partition_spec p n k P N K :
  task_partition p n k = Ok (P, N, K) <->
  completes p n k P N K /\ (isset p \/ isset n /\ isset k) /\ (~ isset n -> ~ isset k -> N = 1).
Proof.
  unfold task_partition, completes. destruct (norm_cases p) as [(Ep & Hp)|(zp & Ep & -> & Hp)];
  destruct (norm_cases n) as [(En & Hn)|(zn & En & -> & Hn)];
  destruct (norm_cases k) as [(Ek & Hk)|(zk & Ek & -> & Hk)]; rewrite ?Ep, ?En, ?Ek;
  repeat rewrite checked_spec; repeat rewrite honours_set by assumption;
  repeat match goal with H : ~ isset _ |- _ => first [pose proof (fun v => honours_not _ v H); revert H | fail] end; intros;
  repeat match goal with H : ?z <> 0 |- _ => lazymatch goal with _ : isset (Some z) |- _ => fail | _ => pose proof (isset_some z H) end end.
  all: split; [|].
  all: try discriminate.
  all: try (intros (_ & Hs & _); tauto).
  all: try (intros (Hs & _); tauto).
  - intros (E & _). injection E as -> -> ->. repeat split; auto; try tauto. 
  - intros ((-> & _ & -> & ->) & _). auto.
  - intros (E & Hm). injection E as -> -> ->. rewrite Z.div_same by assumption. repeat split; auto; try lia.
  - intros ((E & -> & _) & _ & Hone). rewrite Hone in * by assumption. rewrite Z.div_same by assumption. split; [f_equal; lia|lia].
  - intros (E & Hm). injection E as -> -> ->. repeat split; auto; try tauto.
  - intros ((E & -> & _ & ->) & _). assert (Hd : zp / zk = N) by (rewrite E; now apply Z.div_mul). rewrite Hd. auto.
  - intros (E & Hm). injection E as -> -> ->. repeat split; auto; try tauto.
  - intros ((E & -> & -> & _) & _). assert (Hd : zp / zn = K) by (rewrite E, Z.mul_comm; now apply Z.div_mul). rewrite Hd. auto.
  - intros (E & Hm). injection E as -> -> ->. repeat split; auto; try tauto.
  - intros ((E & -> & -> & ->) & _). auto.
Qed.

Lemma partition_err p n k : (forall P N K, task_partition p n k <> Ok (P, N, K)) -> task_partition p n k = Err EMpi.
Proof.
  unfold task_partition, checked. intros H.
  destruct (norm p), (norm n), (norm k); auto;
  match goal with |- context [if ?b then _ else _] => destruct b; [exfalso; eapply H; reflexivity|reflexivity] end.
Qed.


Lemma local_pos w c : usable w c -> 1 <= local w.
Proof. intros (H & _). unfold local. destruct (w_nodes w); [congruence|cbn; lia]. Qed.

Ltac fin := repeat split; intros; auto; try tauto; try lia; try (now apply honours_not); try congruence;
  try (match goal with A : ?e = true -> _ /\ _ /\ _, H : ?e = true |- _ => destruct (A H) as (? & ? & ?); solve [auto | lia] end);
  try (match goal with H : ~ isset ?x, E : ?x = Some ?z |- _ => exfalso; apply H; exists z; solve [auto] end);
  try (match goal with H : ~ isset (Some ?z) |- _ => exfalso; apply H; exists z; split; [reflexivity|lia] end).

Lemma resources_spec w cores enforce p n k P N K :
  get_resources w cores enforce p n k = Ok (P, N, K) <->
  exists c, usable w c /\ completes p n k P N K /\ N <= local w /\
    (enforce = true -> K <= cores /\ K <= core_share w cores c /\ P <= cores * local w) /\
    (~ isset p -> ~ isset k -> 0 < core_share w cores c /\ K = core_share w cores c /\ (~ isset n -> N = local w)) /\
    (isset p -> ~ isset n -> ~ isset k -> (P <= core_share w cores c -> N = 1) /\ (core_share w cores c < P -> N = local w)) /\
    (~ isset p -> isset k -> ~ isset n -> N = local w).
Proof.
  assert (Hfin : forall c a b d, (exists t, task_partition a b d = Ok t /\ (let '(p', n', k') := t in
        if negb (n' <=? local w) then Err EMpi
        else if enforce && negb (k' <=? cores) then Err EMpi
        else if enforce && negb (k' <=? core_share w cores c) then Err EMpi
        else if enforce && negb (p' <=? cores * local w) then Err EMpi
        else Ok (p', n', k')) = Ok (P, N, K)) <->
     completes a b d P N K /\ (isset a \/ isset b /\ isset d) /\ (~ isset b -> ~ isset d -> N = 1) /\ N <= local w /\ (enforce = true -> K <= cores /\ K <= core_share w cores c /\ P <= cores * local w)).
  { intros c a b d. split.
    - intros ([[p' n'] k'] & E & E2). destruct (Z.leb_spec n' (local w)); [|discriminate]. cbn [negb] in E2.
      assert (Ee : (p', n', k') = (P, N, K) /\ (enforce = true -> k' <= cores /\ k' <= core_share w cores c /\ p' <= cores * local w)).
      { destruct enforce; cbn [andb] in E2; [|injection E2 as -> -> ->; split; [reflexivity|discriminate]].
        destruct (Z.leb_spec k' cores); [|discriminate]. destruct (Z.leb_spec k' (core_share w cores c)); [|discriminate].
        destruct (Z.leb_spec p' (cores * local w)); [|discriminate]. cbn in E2. injection E2 as -> -> ->. auto. }
      destruct Ee as (Ee & He). injection Ee as -> -> ->. apply partition_spec in E as (E1 & E3 & E4). auto 6.
    - intros (H1 & H2 & H3 & H4 & H5). exists (P, N, K). split; [apply partition_spec; auto|].
      destruct (Z.leb_spec N (local w)); [|lia]. cbn [negb]. destruct enforce; cbn [andb]; [|reflexivity]. destruct (H5 eq_refl) as (A & B & C).
      destruct (Z.leb_spec K cores); [|lia]. destruct (Z.leb_spec K (core_share w cores c)); [|lia]. destruct (Z.leb_spec P (cores * local w)); [|lia]. reflexivity. }
  assert (Hb : forall A B (m : res A) (f : A -> res B) v, bindr m f = Ok v <-> exists a, m = Ok a /\ f a = Ok v).
  { intros A B m f v. destruct m; cbn; split; [eauto|intros (x & E & H); now injection E as ->|discriminate|intros (x & E & _); discriminate]. }
  unfold get_resources. destruct (w_nodes w) as [|nd nds] eqn:Enodes; [split; [discriminate|intros (c & (H & _) & _); congruence]|].
  destruct (w_sets w =? 0)%nat eqn:Es; [split; [discriminate|intros (c & (_ & H & _) & _); apply Nat.eqb_eq in Es; congruence]|]. apply Nat.eqb_neq in Es.
  destruct (w_count w) as [c|] eqn:Ec; [|split; [discriminate|intros (c & (_ & _ & H & _) & _); congruence]].
  destruct (w_even w) eqn:Ee; [|split; [discriminate|intros (c' & (_ & _ & _ & H) & _); congruence]]. cbn [negb].
  rewrite <- Enodes. fold (local w). change (cores / Z.of_nat (w_sets w) * Z.of_nat c) with (core_share w cores c).
  assert (Hu : usable w c) by (repeat split; auto; congruence). assert (Hl := local_pos w c Hu).
  assert (Hex : forall (Q : nat -> Prop), (exists c0, usable w c0 /\ Q c0) <-> Q c).
  { intros Q. split; [intros (c0 & (_ & _ & H & _) & HQ); congruence|intros HQ; exists c; auto]. }
  rewrite Hex. clear Hex.
  destruct (given p) eqn:Gp; [apply given_spec in Gp|apply given_false in Gp]; (destruct (given k) eqn:Gk; [apply given_spec in Gk|apply given_false in Gk]);
    (destruct (given n) eqn:Gn; [apply given_spec in Gn|apply given_false in Gn]); cbn [negb andb].
  - cbn [bindr]. rewrite Hb, Hfin. tauto.
  - cbn [bindr]. rewrite Hb, Hfin. tauto.
  - cbn [bindr]. rewrite Hb, Hfin. tauto.
  - destruct Gp as (zp & -> & Hz). assert (Hs : isset (Some zp)) by (now exists zp).
    destruct (Z.leb_spec zp (core_share w cores c)) as [Hle|Hlt]; cbn [bindr]; rewrite Hb, Hfin; unfold completes; split.
    + intros ((A1 & A2 & A3 & A4) & _ & _ & A5 & A6). apply honours_set in A3; [|lia]. rewrite honours_set in * by lia. subst. fin.
    + intros ((A1 & A2 & A3 & A4) & A5 & A6 & A7 & A8 & A9). rewrite honours_set in A2 by lia.
      destruct (A8 Hs Gn Gk) as (B1 & _). specialize (B1 ltac:(lia)). subst N. rewrite honours_set by lia. fin.
    + intros ((A1 & A2 & A3 & A4) & _ & _ & A5 & A6). apply honours_set in A3; [|lia]. rewrite honours_set in * by lia. subst. fin.
    + intros ((A1 & A2 & A3 & A4) & A5 & A6 & A7 & A8 & A9). rewrite honours_set in A2 by lia.
      destruct (A8 Hs Gn Gk) as (_ & B1). specialize (B1 ltac:(lia)). subst N. rewrite honours_set by lia. fin.
  - cbn [bindr]. rewrite Hb, Hfin. tauto.
  - cbn [bindr]. rewrite Hb, Hfin. unfold completes. assert (isset (Some (local w))) by (exists (local w); split; [reflexivity|lia]). split.
    + intros ((A1 & A2 & A3 & A4) & _ & _ & A5 & A6). apply honours_set in A3; [|lia]. fin.
    + intros ((A1 & A2 & A3 & A4) & A5 & A6 & A7 & A8 & A9). specialize (A9 Gp Gk Gn). fin.
  - destruct (Z.ltb_spec 0 (core_share w cores c)) as [Hpos|Hneg]; cbn [bindr].
    + rewrite Hb, Hfin. unfold completes. assert (isset (Some (core_share w cores c))) by (eexists; split; [reflexivity|lia]). split.
      * intros ((A1 & A2 & A3 & A4) & _ & _ & A5 & A6). apply honours_set in A4; [|lia]. fin.
      * intros ((A1 & A2 & A3 & A4) & A5 & A6 & A7 & A8 & A9). destruct (A7 Gp Gk) as (_ & B & _). fin.
    + split; [discriminate|]. intros (_ & _ & _ & A & _). destruct (A Gp Gk). lia.
  - destruct (Z.ltb_spec 0 (core_share w cores c)) as [Hpos|Hneg]; cbn [bindr].
    + rewrite Hb, Hfin. unfold completes. assert (isset (Some (core_share w cores c))) by (eexists; split; [reflexivity|lia]).
      assert (isset (Some (local w))) by (eexists; split; [reflexivity|lia]). split.
      * intros ((A1 & A2 & A3 & A4) & _ & _ & A5 & A6). apply honours_set in A4; [|lia]. apply honours_set in A3; [|lia]. fin.
      * intros ((A1 & A2 & A3 & A4) & A5 & A6 & A7 & A8 & A9). destruct (A7 Gp Gk) as (_ & B & B2). specialize (B2 Gn). fin.
    + split; [discriminate|]. intros (_ & _ & _ & A & _). destruct (A Gp Gk). lia.
Qed.

Lemma resources_pos w cores enforce p n k P N K : sane p -> sane n -> sane k ->
  get_resources w cores enforce p n k = Ok (P, N, K) -> 1 <= N /\ 1 <= K.
Proof.
  intros Sp Sn Sk E. apply resources_spec in E as (c & Hu & (E & Hp & Hn & Hk) & _ & _ & D1 & D2 & D3).
  assert (Hl := local_pos _ _ Hu).
  assert (Pp : isset p -> 1 <= P). { intros (z & -> & Hz). specialize (Sp z eq_refl). specialize (Hp z eq_refl Hz). lia. }
  assert (Pn : isset n -> 1 <= N). { intros (z & -> & Hz). specialize (Sn z eq_refl). specialize (Hn z eq_refl Hz). lia. }
  assert (Pk : isset k -> 1 <= K). { intros (z & -> & Hz). specialize (Sk z eq_refl). specialize (Hk z eq_refl Hz). lia. }
  destruct (given p) eqn:Gp; [apply given_spec in Gp|apply given_false in Gp]; (destruct (given k) eqn:Gk; [apply given_spec in Gk|apply given_false in Gk]);
    (destruct (given n) eqn:Gn; [apply given_spec in Gn|apply given_false in Gn]);
    try specialize (Pp Gp); try specialize (Pn Gn); try specialize (Pk Gk); try specialize (D3 Gp Gk Gn);
    try (destruct (D1 Gp Gk) as (D1a & D1b & D1c)); try specialize (D1c Gn); try (destruct (D2 Gp Gn Gk) as (D2a & D2b)); try (split; nia).
Qed.

Lemma div_nonneg a b : 0 <= a -> 0 <= b -> 0 <= a / b.
Proof. intros Ha Hb. destruct (Z.eq_dec b 0) as [-> |]; [now rewrite Zdiv_0_r|]. apply Z.div_pos; lia. Qed.

Lemma min_nodes_spec w p k n g r : sane p -> sane n -> sane g -> get_min_nodes (Some w) p k n g = Ok r ->
  (forall z, n = Some z -> r = Some z) /\ sane r /\ (isset k -> r = n).
Proof.
  intros Sp Sn Sg. unfold get_min_nodes. destruct n as [zn|].
  - intros E. injection E as <-. split; [auto|]. split; [exact Sn|auto].
  - destruct (given k) eqn:Gk; [intros E; injection E as <-; repeat split; auto; discriminate|]. apply given_false in Gk.
    destruct (w_count w) as [c|]; [|discriminate]. destruct (negb (given p) && _); [intros E; injection E as <-; repeat split; auto; discriminate|].
    assert (Hq : forall x y q, 0 <= x -> ceil_q x (Z.of_nat y) = Ok q -> 0 <= q).
    { intros x y q Hx. unfold ceil_q. destruct (Z.eqb_spec (Z.of_nat y) 0); [discriminate|]. intros E. injection E as <-. apply Z.div_pos; lia. }
    assert (Hnorm : forall x z, sane x -> norm x = Some z -> 0 <= z).
    { intros x z Hs E. destruct (norm_cases x) as [(E2 & _)|(z2 & E2 & -> & _)]; [congruence|]. assert (z = z2) by congruence. subst. now apply Hs. }
    destruct (match norm p with Some x => ceil_q x (Z.of_nat (c * w_procs w)) | None => Ok 1 end) as [pm|] eqn:E1; [|discriminate]. cbn [bindr].
    destruct (match norm g with Some x => ceil_q x (Z.of_nat (c * w_gpus w)) | None => Ok 1 end) as [gm|] eqn:E2; [|discriminate]. cbn [bindr]. intros E. injection E as <-.
    split; [discriminate|]. split; [|intros H; contradiction]. intros z E. injection E as <-.
    assert (0 <= pm). { destruct (norm p) eqn:Ep; [eapply Hq; [|exact E1]; eauto|]. injection E1 as <-. lia. }
    assert (0 <= gm). { destruct (norm g) eqn:Eg; [eapply Hq; [|exact E2]; eauto|]. injection E2 as <-. lia. }
    destruct (norm p) eqn:Ep; [assert (0 <= z) by eauto|]; lia.
Qed.

Lemma adjust_spec w n u per r : sane n -> sane u -> adjust w n u per = Ok r ->
  sane r /\ (forall z, u = Some z -> r = Some z \/ exists m y c, n = Some m /\ m <> 0 /\ z mod m <> 0 /\ r = Some y /\ rounded_up z m y /\ w_count w = Some c /\ y <= m * Z.of_nat (c * per)) /\
  (u = None -> r = None) /\ (u = Some 0 -> r = Some 0).
Proof.
  intros Sn Su. unfold adjust. destruct u as [z|]; [|intros E; injection E as <-; split; [exact Su|split; [discriminate|split; [auto|discriminate]]]].
  assert (Hz := Su z eq_refl).
  destruct (norm_cases n) as [(-> & _)|(m & -> & -> & Hm)].
  - intros E. injection E as <-. split; [exact Su|]. split; [auto|]. split; auto.
  - assert (Hm0 := Sn m eq_refl). destruct (Z.eqb_spec (z mod m) 0) as [H0|H0].
    + intros E. injection E as <-. split; [exact Su|]. split; [auto|]. split; auto.
    + destruct (w_count w) as [c|]; [|discriminate]. assert (Hb := Z.mod_pos_bound z m ltac:(lia)).
      destruct (Z.leb_spec (z + (m - z mod m)) (Z.of_nat (c * per) * m)) as [Hle|Hle].
      * intros E. injection E as <-. split; [intros y E; injection E as <-; lia|]. split.
        -- intros x E. injection E as <-. right. exists m, (z + (m - z mod m)), c. repeat split; auto; try lia.
           exists (z / m + 1). assert (Hd := Z.div_mod z m Hm). lia.
        -- split; [discriminate|]. intros E. injection E as ->. rewrite Zmod_0_l in H0. congruence.
      * intros E. injection E as <-. split; [exact Su|]. split; [auto|]. split; auto.
Qed.


(** The setting [h] tells the runner to use [per] GPUs on each node with [k] ranks. *)
Definition how_ok (w : wres) (per k : Z) (h : gpu_how) : Prop :=
  match h with
  | GEnv ids => exists on, w_on_node w = Some on /\ w_match w = true /\ ids = gpu_ids on (w_gpus w) per
  | GOpt PerNode v => v = per
  | GOpt PerTask v => k <> 0 /\ v = per / k
  end.

Lemma set_gpus_ok r w per k h : set_gpus r w per k = Ok h -> how_ok w per k h.
Proof.
  assert (Henv : env_setting w per = Ok h -> how_ok w per k h).
  { unfold env_setting. destruct (w_match w) eqn:Em; [|discriminate]. destruct (w_on_node w) as [on|] eqn:Eo; [|discriminate]. intros E. injection E as <-. exists on. auto. }
  assert (Hopt : forall o v, opt_value o per k = Ok v -> cli_option w o v = Ok h -> how_ok w per k h).
  { intros o v Hv Hc. unfold cli_option in Hc. destruct (w_even w); [|discriminate]. injection Hc as <-. unfold opt_value in Hv. destruct o; cbn.
    - destruct (Z.eqb_spec k 0); [discriminate|]. injection Hv as <-. auto.
    - now injection Hv as <-. }
  unfold set_gpus. destruct (r_platform r) as [[|o b]|]; [exact Henv| |].
  - destruct (opt_value o per k) eqn:Ev; [|discriminate]. cbn [bindr]. destruct (r_gpu_args r) as [f|]; [|discriminate]. destruct (f o); [|discriminate]. now apply Hopt.
  - destruct (r_gpu_default r) as [o|]; [|exact Henv]. destruct (opt_value o per k) eqn:Ev; [|discriminate]. cbn [bindr].
    destruct (r_gpu_args r) as [f|]; [|discriminate]. destruct (f o); [|discriminate]. now apply Hopt.
Qed.

Lemma assign_spec r w c p n k g m p' n' k' per h : sane p -> sane n -> sane k -> sane g -> w_count w = Some c ->
  assign_gpus r (Some w) p n k g m = Ok (p', n', k', per, h) ->
  sane p' /\ sane n' /\ sane k' /\ 0 <= per <= gpu_share w c /\
  (exists N, n' = Some N /\ (forall z, n = Some z -> N = z) /\
    match g with None => per = gpu_share w c | Some G => N <> 0 /\ per = Z.min (G / N) (gpu_share w c) end /\
    (m = false -> p' = p /\ (k' = k \/ k = None /\ exists P K, p = Some P /\ k' = Some K /\ N <> 0 /\ K = P / N)) /\
    (m = true -> p' = Some (N * per) /\ k' = Some per /\ 0 < N * per)) /\
  match h with None => g = Some 0 | Some hw => g <> Some 0 /\ exists K, k' = Some K /\ how_ok w per K hw end.
Proof.
  intros Sp Sn Sk Sg Ec. unfold assign_gpus. rewrite Ec.
  assert (Ha : exists a, (if w_has_gpus w then Ok (Z.of_nat (c * w_gpus w)) else Ok 0) = @Ok Z a /\ a = gpu_share w c).
  { unfold gpu_share. destruct (w_has_gpus w); eexists; split; reflexivity. }
  destruct Ha as (a & -> & Ea). cbn [bindr]. subst a. assert (Hs0 : 0 <= gpu_share w c) by (unfold gpu_share; destruct (w_has_gpus w); lia).
  set (N := match n with Some _ => _ | None => _ end).
  assert (HN : 0 <= N /\ (forall z, n = Some z -> N = z)).
  { unfold N. destruct n as [z|]; [split; [now apply Sn|congruence]|]. split; [|discriminate].
    destruct (norm_cases p) as [(-> & _)|(zp & -> & -> & Hzp)]; [lia|]. assert (0 <= zp) by now apply Sp.
    destruct (norm_cases k) as [(-> & _)|(zk & -> & -> & Hzk)]; [lia|]. assert (0 <= zk) by now apply Sk. now apply div_nonneg. }
  destruct HN as (HN0 & HN). clearbody N.
  destruct (match g with Some G => if N =? 0 then Err EZeroDiv else Ok (Z.min (G / N) (gpu_share w c)) | None => Ok (gpu_share w c) end) as [pn|] eqn:Eg; [|discriminate]. cbn [bindr].
  assert (Hpn : 0 <= pn <= gpu_share w c /\ match g with None => pn = gpu_share w c | Some G => N <> 0 /\ pn = Z.min (G / N) (gpu_share w c) end).
  { destruct g as [G|]; [|injection Eg as <-; split; [lia|reflexivity]]. destruct (Z.eqb_spec N 0); [discriminate|]. injection Eg as <-.
    assert (0 <= G / N) by (apply div_nonneg; [now apply Sg|lia]). split; [lia|auto]. }
  destruct Hpn as (Hp1 & Hp2). clear Eg.
  destruct (if m then if 0 <? N * pn then Ok (Some (N * pn), Some pn) else Err EExec else Ok (p, k)) as [[p1 k1]|] eqn:Em; [|discriminate]. cbn [bindr].
  assert (Hm : sane p1 /\ sane k1 /\ (m = false -> p1 = p /\ k1 = k) /\ (m = true -> p1 = Some (N * pn) /\ k1 = Some pn /\ 0 < N * pn)).
  { destruct m.
    - destruct (Z.ltb_spec 0 (N * pn)); [|discriminate]. injection Em as <- <-. split; [intros z E; injection E as <-; lia|]. split; [intros z E; injection E as <-; lia|].
      split; [discriminate|auto].
    - injection Em as <- <-. split; [exact Sp|]. split; [exact Sk|]. split; [auto|discriminate]. }
  destruct Hm as (S1 & S2 & M1 & M2). clear Em.
  destruct (match g with Some 0 => true | _ => false end) eqn:Eg0.
  - assert (g = Some 0) by (destruct g as [[| |]|]; try discriminate; reflexivity). intros E. injection E as <- <- <- <- <-. split; [exact S1|].
    split; [intros z E; injection E as <-; lia|]. split; [exact S2|]. split; [exact Hp1|]. split; [|exact H].
    exists N. split; [reflexivity|]. split; [exact HN|]. split; [exact Hp2|]. split; [intros Hm; destruct (M1 Hm); auto|exact M2].
  - assert (Hg0 : g <> Some 0) by (intros ->; discriminate).
    destruct (match k1 with Some k0 => Ok k0 | None => match p1 with None => Err EType | Some x => if N =? 0 then Err EZeroDiv else Ok (x / N) end end) as [kk|] eqn:Ek; [|discriminate]. cbn [bindr].
    destruct (set_gpus r w pn kk) as [hw|] eqn:Eh; [|discriminate]. cbn [bindr]. intros E. injection E as <- <- <- <- <-.
    assert (Hk : 0 <= kk /\ (k1 = Some kk \/ k1 = None /\ exists P, p1 = Some P /\ N <> 0 /\ kk = P / N)).
    { destruct k1 as [k0|]; [injection Ek as <-; split; [now apply S2|auto]|]. destruct p1 as [x|]; [|discriminate]. destruct (Z.eqb_spec N 0); [discriminate|]. injection Ek as <-.
      split; [apply div_nonneg; [now apply S1|lia]|]. right. split; [reflexivity|]. exists x. auto. }
    destruct Hk as (Hk0 & Hk). split; [exact S1|]. split; [intros z E; injection E as <-; lia|]. split; [intros z E; injection E as <-; lia|]. split; [exact Hp1|].
    split; [|split; [exact Hg0|exists kk; split; [reflexivity|eapply set_gpus_ok; eauto]]].
    exists N. split; [reflexivity|]. split; [exact HN|]. split; [exact Hp2|]. split.
    + intros Hm. destruct (M1 Hm) as (-> & ->). split; [reflexivity|]. destruct Hk as [Hk|(Hk & P & ? & ? & ?)]; [left; congruence|right; split; [exact Hk|exists P, kk; auto]].
    + intros Hm. destruct (M2 Hm) as (-> & -> & ?). split; [reflexivity|]. split; [|assumption]. destruct Hk as [Hk|(Hk & _)]; congruence.
Qed.

Lemma bindr_ok {A B} (m : res A) (f : A -> res B) v : bindr m f = Ok v -> exists a, m = Ok a /\ f a = Ok v.
Proof. destruct m; cbn; [eauto|discriminate]. Qed.

(** The whole computation for a worker with resources, without extra arguments
    and without a machine file of the user's. *)
Lemma specs_spec r w cores enforce p n k g auto m s : sane p -> sane n -> sane k -> sane g ->
  get_mpi_specs r (Some w) cores enforce p n k g None false auto m = Ok s ->
  exists P N K c p1 n1 k1, usable w c /\ get_resources w cores enforce p1 n1 k1 = Ok (P, N, K) /\ 1 <= N /\ 1 <= K /\
    s_procs s = Some P /\ s_nodes s = Some N /\ (s_ppn s = Some K \/ r_rm_rpn r = true /\ s_ppn s = None) /\
    honours n N /\ honours k K /\ honours n1 N /\ honours k1 K /\ honours p1 P /\
    (forall z, p = Some z -> z <> 0 -> P = z \/ rounded_up z N P /\ P <= N * Z.of_nat (c * w_procs w)) /\
    (m = true -> ~ isset p /\ ~ isset k) /\
    (auto = false -> g = None -> s_gpus s = None /\ (~ isset p -> ~ isset p1) /\ (~ isset k -> ~ isset k1)) /\
    (auto = true \/ g <> None -> exists per how, s_gpus s = Some (per, how) /\ 0 <= per <= gpu_share w c /\
       match g with
       | None => per = gpu_share w c
       | Some G => exists G', (G' = G \/ rounded_up G N G') /\ per = Z.min (G' / N) (gpu_share w c)
       end /\
       (~ isset p -> ~ isset k -> K = per) /\
       match how with None => g = Some 0 | Some hw => g <> Some 0 /\ (how_ok w per K hw) end) /\
    (s_hosts s = match r_express r with XHosts => Some (get_hostlist w N) | _ => None end) /\
    (s_mfile s = match r_express r with XMachinefile => Some (Some (create_machinefile w N K)) | _ => None end).
Proof.
  intros Sp Sn Sk Sg. unfold get_mpi_specs. cbn [fill drop]. replace (fill p None) with p by (destruct p; reflexivity).
  replace (fill n None) with n by (destruct n; reflexivity). replace (fill k None) with k by (destruct k; reflexivity).
  destruct (m && negb (negb (given p || given k))) eqn:Em; [discriminate|]. intros E.
  assert (Hm : m = true -> ~ isset p /\ ~ isset k).
  { intros ->. cbn in Em. rewrite negb_involutive in Em. apply orb_false_iff in Em as (E1 & E2). split; now apply given_false. }
  apply bindr_ok in E as (n0 & En & E). destruct (min_nodes_spec _ _ _ _ _ _ Sp Sn Sg En) as (N1 & N2 & N3).
  apply bindr_ok in E as ([p2 g2] & Ea & E). unfold adjust_procs in Ea. apply bindr_ok in Ea as (ga & Eg & Ea). apply bindr_ok in Ea as (pa & Ep & Ea). injection Ea as -> ->.
  destruct (adjust_spec _ _ _ _ _ N2 Sg Eg) as (G1 & G2 & G3 & G4). destruct (adjust_spec _ _ _ _ _ N2 Sp Ep) as (P1 & P2 & P3 & P4).
  apply bindr_ok in E as ([[[p1 n1] k1] gs] & Eass & E). apply bindr_ok in E as ([[[[a b] kk] hs] mf] & Er & E). cbn [andb] in Er.
  apply bindr_ok in Er as ([[P N] K] & Eres & Er).
  assert (Hus := Eres). apply resources_spec in Hus as (c & Hu & (Hc1 & Hc2 & Hc3 & Hc4) & _).
  assert (Er2 : (a, b, kk) = (Some P, Some N, Some K) /\ hs = match r_express r with XHosts => Some (get_hostlist w N) | _ => None end /\
     mf = match r_express r with XMachinefile => Some (Some (create_machinefile w N K)) | _ => None end).
  { destruct (r_express r).
    - injection Er as <- <- <- <- <-. auto.
    - destruct (create_machinefile w N K) eqn:Ec; [discriminate|]. injection Er as <- <- <- <- <-. auto.
    - injection Er as <- <- <- <- <-. auto. }
  destruct Er2 as (Er2 & -> & ->). injection Er2 as -> -> ->. injection E as <-. cbn [s_procs s_nodes s_ppn s_hosts s_mfile s_gpus drop].
  assert (Hcnt : w_count w = Some c) by (destruct Hu as (_ & _ & H & _); exact H).
  assert (Hgg : forall z, g = Some z -> exists z', g2 = Some z' /\ (z' = z \/ exists q, n0 = Some q /\ q <> 0 /\ rounded_up z q z')).
  { intros z Hz. destruct (G2 z Hz) as [H|(q & y & c0 & H1 & H2 & H3 & H4 & H5 & H6 & H7)]; [eauto|exists y; eauto 8]. }
  assert (Hg2 : g2 = None <-> g = None). { split; intros H; [destruct g as [z|]; [destruct (Hgg z eq_refl) as (z' & ? & _); congruence|reflexivity]|auto]. }
  assert (Hset : forall z, p = Some z -> z <> 0 -> exists z', p2 = Some z' /\ z' <> 0 /\ (z' = z \/ exists q, n0 = Some q /\ q <> 0 /\ rounded_up z q z' /\ z' <= q * Z.of_nat (c * w_procs w))).
  { intros z Hz Hz0. assert (0 <= z) by now apply Sp. destruct (P2 z Hz) as [H0|(q & y & c0 & H1 & H2 & H3 & H4 & H5 & H6 & H7)]; [eauto|]. assert (c0 = c) by congruence. subst c0. exists y. split; [auto|]. split; [destruct H5; lia|right; exists q; auto]. }
  assert (Hunset : ~ isset p -> ~ isset p2).
  { intros Hn (z & E & Hz). destruct p as [z0|]; [|specialize (P3 eq_refl); congruence]. destruct (Z.eq_dec z0 0) as [->|]; [specialize (P4 eq_refl); congruence|]. apply Hn. now exists z0. }
  remember (auto || match g2 with Some _ => true | None => false end) as gb eqn:Egb.
  assert (Hkeep : sane p1 /\ sane n1 /\ sane k1 /\ (forall z, n0 = Some z -> n1 = Some z) /\ (isset k -> k1 = k) /\ (isset p -> p1 = p2) /\
    (gb = false -> gs = None /\ p1 = p2 /\ k1 = k) /\
    (gb = true -> exists per how, gs = Some (per, how) /\ 0 <= per <= gpu_share w c /\
       match g2 with None => per = gpu_share w c | Some G' => N <> 0 /\ per = Z.min (G' / N) (gpu_share w c) end /\
       (~ isset p -> ~ isset k -> K = per) /\
       match how with None => g2 = Some 0 | Some hw => g2 <> Some 0 /\ how_ok w per K hw end)).
  { destruct gb.
    - apply bindr_ok in Eass as ([[[[p3 n3] k3] per] how] & Eas & E). injection E as -> -> -> <-.
      destruct (assign_spec _ _ _ _ _ _ _ _ _ _ _ _ _ P1 N2 Sk G1 Hcnt Eas) as (A1 & A2 & A3 & A4 & (N' & A5 & A6 & A7 & A8 & A9) & A10).
      assert (HNN : N' <> 0 -> N = N') by (intros H; apply Hc3; auto).
      split; [exact A1|]. split; [exact A2|]. split; [exact A3|]. split; [intros z Hz; rewrite A5, (A6 z Hz); reflexivity|].
      assert (Hmf : isset p \/ isset k -> m || negb (given p || given k) = false).
      { intros [H|H]; apply given_spec in H; rewrite H; rewrite ?orb_true_r; cbn; rewrite ?orb_false_r; (destruct m; [|reflexivity]);
          destruct (Hm eq_refl) as (Hm1 & Hm2); [apply given_false in Hm1|apply given_false in Hm2]; congruence. }
      split; [intros H; destruct (A8 (Hmf (or_intror H))) as (_ & [H1|(H1 & _)]); [exact H1|destruct H as (z & -> & _); discriminate]|].
      split; [intros H; now destruct (A8 (Hmf (or_introl H))) as (H1 & _)|]. split; [discriminate|]. intros _. exists per, how. split; [reflexivity|]. split; [exact A4|].
      split; [destruct g2 as [G'|]; [|exact A7]; destruct A7 as (A7 & ->); rewrite (HNN A7); auto|].
      split.
      + intros H1 H2. apply given_false in H1, H2. rewrite H1, H2 in A9. cbn in A9. rewrite orb_true_r in A9. destruct (A9 eq_refl) as (_ & B & B2). subst k1.
        apply Hc4; [reflexivity|nia].
      + destruct how as [hw|]; [|exact A10]. destruct A10 as (A10 & KK & A11 & A12). split; [exact A10|]. destruct (Z.eq_dec KK 0) as [->|HK0].
        * (* ranks per node 0: only possible when the option does not depend on it *)
          destruct hw as [ids|[|] v]; cbn in *; [exact A12|destruct A12; congruence|exact A12].
        * rewrite (Hc4 KK A11 HK0). exact A12.
    - injection Eass as -> -> -> <-. split; [exact P1|]. split; [exact N2|]. split; [exact Sk|]. split; [auto|]. split; [auto|]. split; [auto|]. split; [auto|discriminate]. }
  destruct Hkeep as (K1 & K2 & K3 & K4 & K5 & K6 & K7 & K8). destruct (resources_pos _ _ _ _ _ _ _ _ _ K1 K2 K3 Eres) as (HN & HK).
  assert (HnN : forall q, n0 = Some q -> q <> 0 -> N = q) by (intros q Hq Hq0; apply Hc3; auto).
  exists P, N, K, c, p1, n1, k1. split; [exact Hu|]. split; [exact Eres|]. split; [exact HN|]. split; [exact HK|]. split; [reflexivity|]. split; [reflexivity|].
  split. { destruct (r_rm_rpn r && match k1 with Some _ => false | None => match n1 with Some _ => false | None => true end end) eqn:Erm; [|left; reflexivity]. right. apply andb_true_iff in Erm as (-> & _). auto. }
  split. { intros z Hz Hz0. apply HnN; auto. }
  split. { intros z Hz Hz0. apply Hc4; auto. rewrite K5; [exact Hz|now exists z]. }
  split; [exact Hc3|]. split; [exact Hc4|]. split; [exact Hc2|].
  split. { intros z Hz Hz0. destruct (Hset z Hz Hz0) as (z' & E1 & E2 & E3). assert (HP : P = z'). { apply Hc2; [|exact E2]. rewrite K6; [exact E1|now exists z]. } subst z'.
    destruct E3 as [E3|(q & E3 & E4 & E5)]; [left; exact E3|right]. now rewrite (HnN q E3 E4). }
  split; [exact Hm|].
  split. { intros -> Hg. apply Hg2 in Hg. rewrite Hg in Egb. cbn in Egb. destruct (K7 Egb) as (-> & -> & ->). split; [reflexivity|]. split; [exact Hunset|auto]. }
  split; [|split; reflexivity].
  intros Hag. assert (Hgb : gb = true). { rewrite Egb. destruct Hag as [->|H]; [reflexivity|]. destruct g2 as [z|]; [apply orb_true_r|]. elim H. now apply Hg2. }
  destruct (K8 Hgb) as (per & how & B1 & B2 & B3 & B4 & B5). exists per, how. split; [exact B1|]. split; [exact B2|]. split.
  { destruct g as [G|].
    - destruct (Hgg G eq_refl) as (G' & -> & HG). destruct B3 as (B3 & B3'). exists G'. split; [|exact B3']. destruct HG as [->|(q & H1 & H2 & H3)]; [auto|right]. now rewrite (HnN q H1 H2).
    - rewrite (proj2 Hg2 eq_refl) in B3. exact B3. }
  split; [exact B4|]. destruct how as [hw|].
  - destruct B5 as (B5 & B6). split; [|exact B6]. intros ->. apply B5. now apply G4.
  - destruct g as [z|]; [|specialize (G3 eq_refl); congruence]. destruct (Hgg z eq_refl) as (z' & Hz' & HG). assert (z' = 0) by congruence. subst z'.
    destruct HG as [<-|(q & _ & H2 & (H3 & H4))]; [reflexivity|]. assert (0 <= z) by now apply Sg. f_equal. lia.
Qed.

(** The nodes chosen before the GPUs are assigned are the task's nodes. *)
Lemma specs_nodes r w cores enforce p n k g auto m s q : sane p -> sane n -> sane k -> sane g ->
  get_mpi_specs r (Some w) cores enforce p n k g None false auto m = Ok s -> get_min_nodes (Some w) p k n g = Ok (Some q) -> q <> 0 -> s_nodes s = Some q.
Proof.
  intros Sp Sn Sk Sg E Eq Hq. assert (E' := E). unfold get_mpi_specs in E. cbn [fill drop] in E. replace (fill p None) with p in E by (destruct p; reflexivity).
  replace (fill n None) with n in E by (destruct n; reflexivity). replace (fill k None) with k in E by (destruct k; reflexivity).
  destruct (m && negb (negb (given p || given k))); [discriminate|]. rewrite Eq in E. cbn [bindr] in E. destruct (min_nodes_spec _ _ _ _ _ _ Sp Sn Sg Eq) as (N1 & N2 & N3).
  apply bindr_ok in E as ([p2 g2] & Ea & E). unfold adjust_procs in Ea. apply bindr_ok in Ea as (ga & Eg & Ea). apply bindr_ok in Ea as (pa & Ep & Ea). injection Ea as -> ->.
  destruct (adjust_spec _ _ _ _ _ N2 Sg Eg) as (G1 & _). destruct (adjust_spec _ _ _ _ _ N2 Sp Ep) as (P1 & _).
  apply bindr_ok in E as ([[[p1 n1] k1] gs] & Eass & E). apply bindr_ok in E as ([[[[a b] kk] hs] mf] & Er & E). cbn [andb] in Er.
  apply bindr_ok in Er as ([[P N] K] & Eres & Er). apply resources_spec in Eres as (c & Hu & (_ & _ & Hc3 & _) & _).
  assert (Hb : b = Some N). { destruct (r_express r); [injection Er; congruence|destruct (create_machinefile w N K); [discriminate|injection Er; congruence]|injection Er; congruence]. }
  injection E as <-. cbn [s_nodes drop]. rewrite Hb. f_equal. apply Hc3; [|exact Hq].
  destruct (auto || match g2 with Some _ => true | None => false end).
  - apply bindr_ok in Eass as ([[[[p3 n3] k3] per] how] & Eas & Ex). injection Ex as -> -> -> <-. assert (Hcnt : w_count w = Some c) by (destruct Hu as (_ & _ & H & _); exact H).
    destruct (assign_spec _ _ _ _ _ _ _ _ _ _ _ _ _ P1 N2 Sk G1 Hcnt Eas) as (_ & _ & _ & _ & (N' & A5 & A6 & _) & _). rewrite A5, (A6 q eq_refl). reflexivity.
  - injection Eass as <- <- <- <-. reflexivity.
Qed.

Lemma ceil_least a b : 0 < a -> 0 < b -> let q := (a + b - 1) / b in 1 <= q /\ a <= q * b /\ forall x, a <= x * b -> q <= x.
Proof.
  intros Ha Hb. cbn zeta. assert (D := Z.div_mod (a + b - 1) b ltac:(lia)). assert (M := Z.mod_pos_bound (a + b - 1) b Hb). set (q := (a + b - 1) / b) in *. split; [nia|]. split; [nia|]. intros x Hx. nia.
Qed.

(** The least number of nodes on which [z] processes and the GPUs fit. *)
Lemma min_nodes_least w z g c q : 0 < z -> sane g -> w_count w = Some c -> get_min_nodes (Some w) (Some z) None None g = Ok (Some q) ->
  exists M, (1 <= M /\ z <= M * Z.of_nat (c * w_procs w) /\ (forall G, g = Some G -> G <= M * Z.of_nat (c * w_gpus w))) /\
    (forall M', 1 <= M' -> z <= M' * Z.of_nat (c * w_procs w) -> (forall G, g = Some G -> G <= M' * Z.of_nat (c * w_gpus w)) -> M <= M') /\
    q = Z.min (Z.min M (local w)) z.
Proof.
  intros Hz Sg Hc E. unfold get_min_nodes in E. rewrite Hc in E. replace (norm (Some z)) with (Some z) in E by (destruct z; [lia|reflexivity|reflexivity]). replace (given (Some z)) with true in E by (destruct z; [lia|reflexivity|reflexivity]). cbn [given negb andb] in E.
  unfold ceil_q in E. destruct (Z.eqb_spec (Z.of_nat (c * w_procs w)) 0) as [|H1]; [discriminate|]. cbn [bindr] in E.
  destruct (ceil_least z (Z.of_nat (c * w_procs w)) Hz ltac:(lia)) as (A1 & A2 & A3).
  destruct (norm_cases g) as [(Eg & Hg)|(G & Eg & -> & HG)]; rewrite Eg in E; cbn [bindr] in E.
  - exists ((z + Z.of_nat (c * w_procs w) - 1) / Z.of_nat (c * w_procs w)). split; [split; [exact A1|]; split; [exact A2|]|split].
    + intros G ->. destruct (Z.eq_dec G 0) as [->|]; [nia|]. exfalso. apply Hg. now exists G.
    + intros M' _ H _. now apply A3.
    + injection E as <-. unfold local. f_equal. f_equal. apply Z.max_l. exact A1.
  - destruct (Z.eqb_spec (Z.of_nat (c * w_gpus w)) 0) as [|H2]; [discriminate|]. cbn [bindr] in E. assert (HG0 := Sg G eq_refl).
    destruct (ceil_least G (Z.of_nat (c * w_gpus w)) ltac:(lia) ltac:(lia)) as (B1 & B2 & B3). set (qa := (z + _ - 1) / _) in *. set (qb := (G + _ - 1) / _) in *.
    exists (Z.max qa qb). split; [split; [lia|split; [nia|]]|split].
    + intros G' E'. injection E' as <-. nia.
    + intros M' _ Ha Hb. specialize (A3 M' Ha). specialize (B3 M' (Hb G eq_refl)). lia.
    + injection E as <-. reflexivity.
Qed.

(** ** Hosts *)
Lemma py_first_length {A} n (l : list A) : 0 <= n <= Z.of_nat (length l) -> length (py_first n l) = Z.to_nat n.
Proof. intros H. unfold py_first. destruct (Z.ltb_spec n 0); [lia|]. rewrite firstn_length. lia. Qed.

Lemma py_first_In {A} n (l : list A) x : In x (py_first n l) -> In x l.
Proof. intros H. unfold py_first in H. rewrite <- (firstn_skipn (Z.to_nat (if n <? 0 then Z.of_nat (length l) + n else n)) l). apply in_or_app. auto. Qed.

Lemma firstn_NoDup {A} n (l : list A) : NoDup l -> NoDup (firstn n l).
Proof.
  revert n. induction l as [|x l IH]; intros n H; destruct n; cbn; try constructor; inversion H; subst; auto.
  intros Hi. apply H2. rewrite <- (firstn_skipn n l). apply in_or_app. auto.
Qed.

Lemma occurs_repeat x y n : occurs x (repeat y n) = if String.eqb x y then n else 0%nat.
Proof. unfold occurs. induction n as [|n IH]; cbn; [now destruct (String.eqb x y)|]. destruct (String.eqb x y); cbn; congruence. Qed.
Lemma occurs_app x a b : occurs x (a ++ b) = (occurs x a + occurs x b)%nat.
Proof. unfold occurs. now rewrite filter_app, app_length. Qed.

Lemma machinefile_spec (l : list node) k : NoDup l ->
  (forall x, occurs x (flat_map (fun y => repeat y k) l) = if existsb (String.eqb x) l then k else 0%nat) /\
  length (flat_map (fun y => repeat y k) l) = (length l * k)%nat.
Proof.
  induction l as [|y l IH]; intros H; [split; reflexivity|]. cbn [flat_map existsb length]. inversion H; subst. destruct (IH H3) as (I1 & I2). split.
  - intros x. rewrite occurs_app, occurs_repeat, I1. destruct (String.eqb_spec x y) as [->|]; cbn; [|reflexivity].
    replace (existsb (String.eqb y) l) with false; [lia|]. symmetry. apply not_true_is_false. intros E. apply existsb_exists in E as (z & Hz & Ez). apply String.eqb_eq in Ez. subst. contradiction.
  - rewrite app_length, repeat_length, I2. lia.
Qed.
