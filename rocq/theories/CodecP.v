(** * The checkpoint encoding: decoding inverts encoding, and never accepts a truncation *)
From Coq Require Import ZArith NArith List Bool Arith Lia Ascii String Floats.SpecFloat.
From Verif Require Import F64 Base Builders Types Runner Observer Env Codec Checkpoint SpecCheckpoint.
Import ListNotations.
Local Open Scope parser_scope.

(** [rt P e d]: decoding what was encoded gives it back and leaves what follows *)
Definition rt {A} (P : A -> Prop) (e : A -> bytes) (d : parser A) : Prop :=
  forall a r, P a -> d (e a ++ r) = Some (a, r).
(** more input after a successful parse is left unread *)
Definition mono {A} (d : parser A) : Prop :=
  forall s a r t, d s = Some (a, r) -> d (s ++ t) = Some (a, r ++ t).

Lemma N_ascii : forall n, (n < 256)%N -> N_of_ascii (ascii_of_N n) = n.
Proof. intros. apply N_ascii_embedding. assumption. Qed.
Lemma rt_le : forall k, rt (fun n => n < 256 ^ N.of_nat k)%N (enc_le k) (dec_le k).
Proof.
  induction k as [|k IH]; intros n r H.
  - simpl in *. assert (n = 0)%N by lia. subst. reflexivity.
  - cbn [enc_le dec_le app]. unfold pbind.
    rewrite IH.
    + unfold pret. f_equal. f_equal. rewrite N_ascii.
      * pose proof (N.div_mod n 256). lia.
      * apply N.mod_lt. lia.
    + rewrite Nat2N.inj_succ, N.pow_succ_r' in H. apply N.div_lt_upper_bound; lia.
Qed.
Lemma rt_weak : forall {A} (P Q : A -> Prop) e d, (forall a, P a -> Q a) -> rt Q e d -> rt P e d.
Proof. intros A P Q e d H R a r Ha. apply R. auto. Qed.
Lemma rt_u64 : rt u64_ok enc_u64 dec_u64.
Proof. eapply rt_weak; [|apply rt_le]. intros a H. exact H. Qed.
Lemma rt_usize : rt usize_ok enc_usize dec_usize.
Proof.
  intros n r H. unfold dec_usize, pbind, enc_usize. rewrite rt_u64 by exact H.
  unfold pret. rewrite Nat2N.id. reflexivity.
Qed.
Lemma rt_bool : rt (fun _ => True) enc_bool dec_bool.
Proof. intros b r _. destruct b; reflexivity. Qed.
Lemma rt_tag : rt (fun n => n < 256 ^ 4)%N enc_tag dec_tag.
Proof. apply (rt_le 4). Qed.

(** ** Floats *)
Lemma bounded_facts : forall m e, bounded prec emax m e = true ->
  (Npos m < 2 ^ 53)%N /\
  ((Npos m < 2 ^ 52)%N -> e = (-1074)%Z) /\ (-1074 <= e <= 971)%Z.
Proof.
  intros m e H. unfold bounded in H. apply andb_prop in H as [H1 H2].
  unfold canonical_mantissa in H1. apply Zeq_bool_eq in H1. unfold fexp, emin, prec, emax in *.
  apply Zle_bool_imp_le in H2.
  assert (Hd : forall p, Zpos (digits2_pos p) = Z.succ (Z.log2 (Zpos p))).
  { intro p. induction p; simpl digits2_pos; rewrite ?Pos2Z.inj_succ, ?IHp.
    - rewrite Pos2Z.inj_xI. rewrite <- Z.log2_succ_double by lia. lia.
    - rewrite Pos2Z.inj_xO. rewrite <- Z.log2_double by lia. lia.
    - reflexivity. }
  rewrite Hd in H1.
  assert (Hm : (2 ^ Z.log2 (Zpos m) <= Zpos m < 2 ^ Z.succ (Z.log2 (Zpos m)))%Z) by (apply Z.log2_spec; lia).
  assert (Hl : (Z.log2 (Zpos m) <= 52)%Z) by lia.
  split; [|split].
  - assert (2 ^ Z.succ (Z.log2 (Zpos m)) <= 2 ^ 53)%Z by (apply Z.pow_le_mono_r; lia).
    assert (Zpos m < 2 ^ 53)%Z by lia. change (2 ^ 53)%N with (Z.to_N (2 ^ 53)). lia.
  - intro Hs. assert (Hz : (Zpos m < 2 ^ 52)%Z) by (change (2 ^ 52)%N with (Z.to_N (2 ^ 52)) in Hs; lia).
    destruct (Z.eq_dec (Z.log2 (Zpos m)) 52) as [E|E]; [|lia].
    rewrite E in Hm. lia.
  - lia.
Qed.
Lemma of_to_bits : forall x, f64_ok x -> of_bits (to_bits x) = x /\ u64_ok (to_bits x).
Proof.
  unfold f64_ok, u64_ok. intros [s|s|s|s m e] H; [destruct s; vm_compute; auto ..|].
  cbn [wf] in H. apply bounded_facts in H as (Hm & Hs & He).
  unfold to_bits. set (sg := if s then (2 ^ 63)%N else 0%N).
  assert (Hsg : sg = if s then (2 ^ 63)%N else 0%N) by reflexivity.
  destruct (N.ltb_spec (Npos m) (2 ^ 52)) as [L|L].
  - specialize (Hs L). subst e.
    assert (E0 : ((sg + Npos m) mod 2 ^ 63 = Npos m)%N).
    { rewrite Hsg. destruct s.
      - rewrite N.add_comm. rewrite <- (N.mul_1_l (2 ^ 63)) at 1. rewrite N.mod_add by lia.
        apply N.mod_small. lia.
      - rewrite N.add_0_l. apply N.mod_small. lia. }
    split.
    + unfold of_bits. rewrite E0. rewrite (N.div_small _ (2 ^ 52)) by exact L.
      rewrite (N.mod_small (Npos m) (2 ^ 52)) by exact L. change (0 =? 0)%N with true. cbv iota.
      f_equal. rewrite Hsg. destruct s; [apply N.leb_le|apply N.leb_gt]; lia.
    + rewrite Hsg. destruct s; lia.
  - assert (Hex : (1 <= Z.to_N (e + 1075) <= 2046)%N) by lia.
    set (ex := Z.to_N (e + 1075)) in *. set (man := (Npos m - 2 ^ 52)%N).
    assert (Hman : (man < 2 ^ 52)%N) by (unfold man; lia).
    assert (Hr : (ex * 2 ^ 52 + man < 2 ^ 63)%N) by lia.
    assert (E0 : ((sg + (ex * 2 ^ 52 + man)) mod 2 ^ 63 = ex * 2 ^ 52 + man)%N).
    { rewrite Hsg. destruct s.
      - rewrite N.add_comm. rewrite <- (N.mul_1_l (2 ^ 63)) at 1. rewrite N.mod_add by lia.
        apply N.mod_small. exact Hr.
      - rewrite N.add_0_l. apply N.mod_small. exact Hr. }
    split.
    + unfold of_bits. rewrite E0.
      replace ((ex * 2 ^ 52 + man) / 2 ^ 52)%N with ex
        by (rewrite N.div_add_l by lia; rewrite (N.div_small man) by exact Hman; lia).
      replace ((ex * 2 ^ 52 + man) mod 2 ^ 52)%N with man
        by (rewrite N.add_comm, N.mod_add by lia; symmetry; apply N.mod_small; exact Hman).
      destruct (N.eqb_spec ex 0); [lia|]. destruct (N.eqb_spec ex 2047); [lia|].
      assert (Em : (man + 2 ^ 52)%N = Npos m) by (unfold man; lia). rewrite Em.
      f_equal; [|unfold ex; lia].
      rewrite Hsg. destruct s; [apply N.leb_le|apply N.leb_gt]; lia.
    + rewrite Hsg. destruct s; lia.
Qed.
Lemma rt_f64 : rt f64_ok enc_f64 dec_f64.
Proof.
  intros x r H. destruct (of_to_bits x H) as [E Hb]. unfold dec_f64, pbind, enc_f64.
  rewrite rt_u64 by exact Hb. unfold pret. rewrite E. reflexivity.
Qed.

(** ** Options, sequences, strings *)
Lemma rt_option : forall {A} (P : A -> Prop) e d, rt P e d -> rt (option_ok P) (enc_option e) (dec_option d).
Proof.
  intros A P e d R [a|] r H; unfold dec_option, pbind, enc_option.
  - rewrite <- app_assoc. rewrite (rt_le 1) by reflexivity. change (1 =? 0)%N with false.
    change (1 =? 1)%N with true. cbv beta iota. rewrite R by exact H. reflexivity.
  - rewrite (rt_le 1) by reflexivity. reflexivity.
Qed.
Definition nonempty_enc {A} (P : A -> Prop) (e : A -> bytes) : Prop := forall a, P a -> 1 <= List.length (e a).
Lemma rt_items : forall {A} (P : A -> Prop) e d, rt P e d -> forall l r, Forall P l ->
  dec_n d (List.length l) (enc_items e l ++ r) = Some (l, r).
Proof.
  intros A P e d R l. induction l as [|a l IH]; intros r H; [reflexivity|].
  apply Forall_cons_iff in H as [Ha Hl]. cbn [List.length dec_n]. unfold pbind, enc_items. cbn [map List.concat].
  rewrite <- app_assoc. rewrite R by exact Ha. change (List.concat (map e l)) with (enc_items e l).
  rewrite IH by exact Hl. reflexivity.
Qed.
Lemma items_length : forall {A} (P : A -> Prop) e, nonempty_enc P e -> forall l, Forall P l ->
  List.length l <= List.length (enc_items e l).
Proof.
  intros A P e H l. induction l as [|a l IH]; intro F; [simpl; lia|].
  apply Forall_cons_iff in F as [Ha Hl]. unfold enc_items in *. cbn [map List.concat]. rewrite app_length.
  cbn [List.length]. specialize (H a Ha). specialize (IH Hl). lia.
Qed.
Lemma rt_vec : forall {A} (P : A -> Prop) e d, nonempty_enc P e -> rt P e d ->
  rt (list_ok P) (enc_vec e) (dec_vec d).
Proof.
  intros A P e d N R l r [Hn Hf]. unfold dec_vec, pbind, enc_vec, enc_usize. rewrite <- app_assoc.
  rewrite rt_u64 by exact Hn.
  destruct (N.leb_spec (N.of_nat (List.length l)) (N.of_nat (List.length (enc_items e l ++ r)))) as [L|L].
  - rewrite Nat2N.id. eapply rt_items; eauto.
  - rewrite app_length in L. pose proof (items_length P e N l Hf). lia.
Qed.
Lemma rt_array : forall {A} (P : A -> Prop) e d, nonempty_enc P e -> rt P e d ->
  rt (list_ok P) (enc_array e) (dec_array d).
Proof.
  intros A P e d N R l r H. unfold dec_array, pbind, enc_array. rewrite <- !app_assoc.
  rewrite (rt_le 1) by reflexivity. change (1 =? 1)%N with true. cbv beta iota.
  unfold enc_usize at 1. rewrite rt_u64 by exact (proj1 H).
  rewrite (rt_vec P e d N R) by exact H. rewrite N.eqb_refl. reflexivity.
Qed.
Lemma str_length : forall s, List.length (str_bytes s) = String.length s.
Proof. induction s; simpl; auto. Qed.
Lemma rt_string : rt string_ok enc_string dec_string.
Proof.
  intros s r [Hn Hv]. unfold dec_string, pbind, enc_string, enc_usize. rewrite <- app_assoc.
  rewrite rt_u64 by exact Hn. rewrite Nat2N.id.
  rewrite <- (str_length s).
  destruct (N.leb_spec (N.of_nat (List.length (str_bytes s))) (N.of_nat (List.length (str_bytes s ++ r)))) as [L|L];
    [|rewrite app_length in L; lia].
  rewrite firstn_app, skipn_app, Nat.sub_diag, firstn_all, skipn_all. simpl. rewrite app_nil_r, Hv.
  unfold str_bytes. rewrite string_of_list_ascii_of_string. reflexivity.
Qed.

Lemma le_length : forall k n, List.length (enc_le k n) = k.
Proof. induction k; intro n; simpl; auto. Qed.
Lemma ne_f64 : nonempty_enc f64_ok enc_f64.
Proof. intros a _. unfold enc_f64, enc_u64. rewrite le_length. lia. Qed.
Lemma ne_vec : forall {A} (P : A -> Prop) (e : A -> bytes) Q, nonempty_enc Q (enc_vec e).
Proof. intros A P e Q a _. unfold enc_vec, enc_usize, enc_u64. rewrite app_length, le_length. lia. Qed.
Lemma ne_lsol : forall Q, nonempty_enc Q enc_lsol.
Proof.
  intros Q a _. unfold enc_lsol, enc_point, enc_array. rewrite !app_length, le_length. lia.
Qed.

(** ** The crate's types *)
Ltac chase := repeat (rewrite <- app_assoc);
  repeat match goal with
  | |- context [pbind ?p ?f ?s] => change (pbind p f s) with (match p s with None => None | Some (a, r) => f a r end)
  end.
Lemma rt_point : rt point_ok enc_point dec_point.
Proof. apply rt_array; [exact ne_f64|exact rt_f64]. Qed.
Lemma rt_tr : rt (fun _ => True) enc_tr_method dec_tr_method.
Proof. intros [|] r _; reflexivity. Qed.
Lemma rt_solver : rt (fun _ => True) enc_solver dec_solver.
Proof. intros [| | | | |] r _; reflexivity. Qed.

Ltac go lem := unfold pbind at 1; rewrite lem by (assumption || exact I || reflexivity || lia); cbv beta iota.
Ltac gos := unfold pbind; repeat (first
   [ rewrite rt_f64 by assumption | rewrite rt_point by assumption | rewrite rt_u64 by assumption
   | rewrite rt_usize by assumption | rewrite (rt_option _ _ _ rt_f64) by assumption
   | rewrite rt_tr by exact I | rewrite rt_solver by exact I
   | rewrite (rt_vec _ _ _ ne_f64 rt_f64) by assumption ]); try reflexivity.
Lemma rt_lsm : rt ls_ok enc_ls dec_ls.
Proof.
  intros [c1 c2 w b|d s e t g n b] r H; cbn [ls_ok enc_ls] in *; unfold dec_ls;
    decompose [and] H; rewrite <- !app_assoc; go rt_tag; cbn [N.eqb Pos.eqb]; gos.
Qed.
Lemma rt_config : rt config_ok enc_config dec_config.
Proof.
  intros c r H. destruct c; cbn [config_ok enc_config] in *; unfold dec_config;
    decompose [and] H; rewrite <- !app_assoc; go rt_tag; cbn [N.eqb Pos.eqb]; gos;
    unfold ls_params in *; try (rewrite rt_lsm by assumption; reflexivity).
Qed.
Lemma rt_params : rt params_ok enc_params dec_params.
Proof.
  intros [a b c d e f g h] r H. unfold params_ok in H. cbn in H. decompose [and] H.
  unfold enc_params, dec_params. cbn [p_iterations p_population p_wait_cycle p_threshold_factor p_distance_factor
    p_solver_type p_solver_config p_seed]. rewrite <- !app_assoc. gos.
  rewrite rt_config by assumption. gos.
Qed.
Lemma rt_lsol : rt lsol_ok enc_lsol dec_lsol.
Proof.
  intros [p o] r [H1 H2]. unfold enc_lsol, dec_lsol. cbn [ls_point ls_obj] in *. rewrite <- app_assoc. gos.
Qed.
Lemma rt_solset : rt (list_ok lsol_ok) enc_solset dec_solset.
Proof. apply rt_array; [apply ne_lsol|exact rt_lsol]. Qed.
Lemma rt_refs : rt (list_ok point_ok) (enc_vec (enc_vec enc_f64)) (dec_vec (dec_vec dec_f64)).
Proof.
  apply rt_vec; [exact (ne_vec f64_ok enc_f64 _)|]. apply rt_vec; [exact ne_f64|exact rt_f64].
Qed.
Theorem rt_checkpoint : rt checkpoint_ok enc_checkpoint dec_checkpoint.
Proof.
  intros [a b c d e f g h i j k l m n o p] r H. unfold checkpoint_ok in H. cbn in H. decompose [and] H. clear H.
  unfold enc_checkpoint, dec_checkpoint.
  cbn [cp_params cp_iteration cp_threshold cp_solution_set cp_reference_set cp_unchanged cp_elapsed
       cp_df_solutions cp_seed cp_target cp_exclude_oob cp_batch cp_parallel cp_abs_tol cp_rel_tol cp_timestamp].
  rewrite <- !app_assoc. unfold pbind.
  rewrite rt_params by assumption. gos.
  rewrite (rt_option _ _ _ rt_solset) by assumption.
  rewrite rt_refs by assumption. gos.
  rewrite (rt_vec _ _ _ (ne_lsol _) rt_lsol) by assumption. gos.
  rewrite rt_bool by exact I. rewrite (rt_option _ _ _ rt_usize) by assumption.
  rewrite rt_bool by exact I. gos. rewrite rt_string by assumption. reflexivity.
Qed.

(** ** Monotonicity *)
Lemma mono_ret : forall {A} (a : A), mono (pret a).
Proof. intros A a s b r t H. unfold pret in *. injection H as <- <-. reflexivity. Qed.
Lemma mono_fail : forall {A}, mono (@pfail A).
Proof. intros A s b r t H. discriminate. Qed.
Lemma mono_bind : forall {A B} (p : parser A) (f : A -> parser B), mono p -> (forall a, mono (f a)) -> mono (pbind p f).
Proof.
  intros A B p f Hp Hf s b r t H. unfold pbind in *. destruct (p s) as [[a u]|] eqn:E; [|discriminate].
  rewrite (Hp _ _ _ t E). apply Hf. exact H.
Qed.
Lemma mono_if : forall {A} (b : bool) (p q : parser A), mono p -> mono q -> mono (if b then p else q).
Proof. intros A [|] p q Hp Hq; assumption. Qed.
Lemma mono_le : forall k, mono (dec_le k).
Proof.
  induction k as [|k IH]; [apply mono_ret|]. intros [|c s] a r t H; [discriminate|].
  cbn [dec_le app] in *. revert H. apply (mono_bind (dec_le k)); [exact IH|]. intro; apply mono_ret.
Qed.
Lemma mono_n : forall {A} (d : parser A), mono d -> forall n, mono (dec_n d n).
Proof.
  intros A d H n. induction n; cbn [dec_n]; [apply mono_ret|].
  apply mono_bind; [exact H|]. intro. apply mono_bind; [exact IHn|]. intro. apply mono_ret.
Qed.
Lemma mono_vec : forall {A} (d : parser A), mono d -> mono (dec_vec d).
Proof.
  intros A d H. apply mono_bind; [apply mono_le|]. intros n s a r t E.
  destruct (N.leb_spec n (N.of_nat (List.length s))) as [L|L]; [|discriminate].
  rewrite app_length. destruct (N.leb_spec n (N.of_nat (List.length s + List.length t))); [|lia].
  apply mono_n; assumption.
Qed.
Lemma mono_array : forall {A} (d : parser A), mono d -> mono (dec_array d).
Proof.
  intros A d H. apply mono_bind; [apply mono_le|]. intro. apply mono_if; [|apply mono_fail].
  apply mono_bind; [apply mono_le|]. intro. apply mono_bind; [apply mono_vec; exact H|]. intro.
  apply mono_if; [apply mono_ret|apply mono_fail].
Qed.
Lemma mono_string : mono dec_string.
Proof.
  apply mono_bind; [apply mono_le|]. intros n s a r t E.
  destruct (N.leb_spec n (N.of_nat (List.length s))) as [L|L]; [|discriminate].
  rewrite app_length. destruct (N.leb_spec n (N.of_nat (List.length s + List.length t))); [|lia].
  cbv zeta in *. rewrite firstn_app, skipn_app. replace (N.to_nat n - List.length s) with 0 by lia. simpl.
  rewrite app_nil_r. destruct (valid_utf8 (firstn (N.to_nat n) s)); [|discriminate].
  injection E as <- <-. reflexivity.
Qed.
Ltac monos := repeat first
  [ apply mono_ret | apply mono_fail | apply mono_string | apply mono_le
  | apply mono_array | apply mono_vec | apply mono_bind; [|intro] | apply mono_if ].
Theorem mono_checkpoint : mono dec_checkpoint.
Proof.
  unfold dec_checkpoint, dec_params, dec_usize, dec_solver, dec_config, dec_ls, dec_tr_method, dec_solset, dec_lsol,
    dec_point, dec_option, dec_bool, dec_f64, dec_u64, dec_tag. monos.
Qed.

(** ** What the properties use *)
Theorem decode_encode : forall cp, checkpoint_ok cp -> decode_checkpoint (enc_checkpoint cp) = Some cp.
Proof.
  intros cp H. unfold decode_checkpoint. pose proof (rt_checkpoint cp [] H) as E. rewrite app_nil_r in E.
  rewrite E. reflexivity.
Qed.
Theorem decode_prefix : forall cp k, checkpoint_ok cp -> k < List.length (enc_checkpoint cp) ->
  decode_checkpoint (firstn k (enc_checkpoint cp)) = None.
Proof.
  intros cp k H Hk. unfold decode_checkpoint.
  destruct (dec_checkpoint (firstn k (enc_checkpoint cp))) as [[a r]|] eqn:E; [|reflexivity]. exfalso.
  apply (mono_checkpoint _ _ _ (skipn k (enc_checkpoint cp))) in E. rewrite firstn_skipn in E.
  pose proof (rt_checkpoint cp [] H) as G. rewrite app_nil_r in G. rewrite G in E.
  assert (L : skipn k (enc_checkpoint cp) = []).
  { injection E as _ E. symmetry in E. apply app_eq_nil in E. tauto. }
  apply (f_equal (@List.length _)) in L. rewrite skipn_length in L. revert L Hk.
  change (List.length (@nil ascii)) with 0. generalize (List.length (enc_checkpoint cp)). intros; lia.
Qed.
Theorem enc_injective : forall a b, checkpoint_ok a -> checkpoint_ok b ->
  enc_checkpoint a = enc_checkpoint b -> a = b.
Proof.
  intros a b Ha Hb E. pose proof (decode_encode a Ha) as G. rewrite E, (decode_encode b Hb) in G. congruence.
Qed.
