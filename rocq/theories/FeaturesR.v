(** * Checkpoint files of one build read by another *)
From Coq Require Import ZArith NArith List Bool Arith Lia Ascii String Floats.SpecFloat.
From Verif Require Import F64 Base Builders Types Runner Observer Env Codec Checkpoint Oqnlp Features SpecCheckpoint
  SpecFeatures CodecP.
Import ListNotations.
Local Open Scope parser_scope.

Fixpoint le_value (l : bytes) : N :=
  match l with [] => 0%N | c :: r => (N_of_ascii c + 256 * le_value r)%N end.
Lemma le_take : forall a r, dec_le (List.length a) (a ++ r) = Some (le_value a, r).
Proof.
  induction a as [|c a IH]; intro r; [reflexivity|]. cbn [List.length dec_le app le_value]. unfold pbind. rewrite IH. reflexivity.
Qed.
Lemma le_app : forall a b, le_value (a ++ b) = (le_value a + 256 ^ N.of_nat (List.length a) * le_value b)%N.
Proof.
  induction a as [|c a IH]; intro b; [cbn [app List.length le_value]; rewrite N.mul_1_l; lia|]. cbn [List.length app le_value].
  rewrite IH, Nat2N.inj_succ, N.pow_succ_r'. lia.
Qed.
Lemma le_enc : forall k n, (n < 256 ^ N.of_nat k)%N -> le_value (enc_le k n) = n.
Proof.
  intros k n H. pose proof (rt_le k n [] H) as E. pose proof (le_take (enc_le k n) []) as T. rewrite le_length in T. rewrite T in E.
  injection E as E. exact E.
Qed.
Lemma enc_mod : forall k n, le_value (enc_le k n) = (n mod 256 ^ N.of_nat k)%N.
Proof.
  induction k as [|k IH]; intro n; [cbn; rewrite N.mod_1_r; reflexivity|]. cbn [enc_le le_value].
  rewrite IH, N_ascii by (apply N.mod_lt; lia). rewrite Nat2N.inj_succ, N.pow_succ_r'.
  rewrite N.mod_mul_r; [reflexivity|lia|apply N.pow_nonzero; lia].
Qed.
Lemma enc_split : forall j k n, enc_le (j + k) n = enc_le j n ++ enc_le k (n / 256 ^ N.of_nat j)%N.
Proof.
  induction j as [|j IH]; intros k n; [cbn [plus enc_le app]; rewrite N.div_1_r; reflexivity|].
  cbn [plus enc_le app]. rewrite IH, Nat2N.inj_succ, N.pow_succ_r', N.div_div; [reflexivity|lia|apply N.pow_nonzero; lia].
Qed.

Definition head (c : checkpoint) : bytes :=
  enc_params (cp_params c) ++ enc_usize (cp_iteration c) ++ enc_f64 (cp_threshold c) ++
  enc_option enc_solset (cp_solution_set c) ++ enc_vec (enc_vec enc_f64) (cp_reference_set c) ++
  enc_usize (cp_unchanged c) ++ enc_f64 (cp_elapsed c) ++ enc_vec enc_lsol (cp_df_solutions c) ++
  enc_u64 (cp_seed c) ++ enc_option enc_f64 (cp_target c) ++ enc_bool (cp_exclude_oob c).
Definition tail (F : features) (c : checkpoint) : bytes :=
  (if f_rayon F then enc_option enc_usize (cp_batch c) else []) ++
  (if f_rayon F then enc_bool (cp_parallel c) else []) ++
  enc_f64 (cp_abs_tol c) ++ enc_f64 (cp_rel_tol c) ++ enc_string (cp_timestamp c).
Lemma enc_parts : forall F c, b_enc_checkpoint F c = head c ++ tail F c.
Proof. intros. unfold b_enc_checkpoint, head, tail. rewrite <- !app_assoc. reflexivity. Qed.
Definition fill (c : checkpoint) (l : option nat) (m : bool) (n o : f64) (p : string) : checkpoint :=
  mk_cp (cp_params c) (cp_iteration c) (cp_threshold c) (cp_solution_set c) (cp_reference_set c)
        (cp_unchanged c) (cp_elapsed c) (cp_df_solutions c) (cp_seed c) (cp_target c) (cp_exclude_oob c) l m n o p.
Definition dec_tail (F : features) (c : checkpoint) : parser checkpoint :=
  l <~ (if f_rayon F then dec_option dec_usize else pret None) ;;
  m <~ (if f_rayon F then dec_bool else pret false) ;;
  n <~ dec_f64 ;; o <~ dec_f64 ;; p <~ dec_string ;; pret (fill c l m n o p).
Lemma dec_parts : forall F c x, checkpoint_ok c -> b_dec_checkpoint F (head c ++ x) = dec_tail F c x.
Proof.
  intros F [a b c d e f g h i j k l m n o p] x H. unfold checkpoint_ok in H. cbn in H. decompose [and] H. clear H.
  unfold b_dec_checkpoint, head, dec_tail, fill.
  cbn [cp_params cp_iteration cp_threshold cp_solution_set cp_reference_set cp_unchanged cp_elapsed
       cp_df_solutions cp_seed cp_target cp_exclude_oob cp_batch cp_parallel cp_abs_tol cp_rel_tol cp_timestamp].
  rewrite <- !app_assoc. unfold pbind at 1.
  rewrite rt_params by assumption. unfold pbind at 1. rewrite rt_usize by assumption. unfold pbind at 1. rewrite rt_f64 by assumption.
  unfold pbind at 1. rewrite (rt_option _ _ _ rt_solset) by assumption.
  unfold pbind at 1. rewrite rt_refs by assumption. unfold pbind at 1. rewrite rt_usize by assumption. unfold pbind at 1. rewrite rt_f64 by assumption.
  unfold pbind at 1. rewrite (rt_vec _ _ _ (ne_lsol _) rt_lsol) by assumption. unfold pbind at 1. rewrite rt_u64 by assumption.
  unfold pbind at 1. rewrite (rt_option _ _ _ rt_f64) by assumption. unfold pbind at 1.
  rewrite rt_bool by exact I. reflexivity.
Qed.
Theorem own_file : forall F c r, checkpoint_ok c -> b_dec_checkpoint F (b_enc_checkpoint F c ++ r) = Some (as_kept F c, r).
Proof.
  intros F c r H. rewrite enc_parts, <- app_assoc, dec_parts by exact H. unfold checkpoint_ok in H. decompose [and] H. clear H.
  unfold dec_tail, tail, as_kept. destruct (f_rayon F); rewrite <- !app_assoc; unfold pbind, pret; cbn [app].
  - rewrite (rt_option _ _ _ rt_usize) by assumption. rewrite rt_bool by exact I. rewrite rt_f64 by assumption. rewrite rt_f64 by assumption.
    rewrite rt_string by assumption. destruct c. reflexivity.
  - rewrite rt_f64 by assumption. rewrite rt_f64 by assumption. rewrite rt_string by assumption. reflexivity.
Qed.
Theorem b_mono : forall F, mono (b_dec_checkpoint F).
Proof.
  intro F. unfold b_dec_checkpoint, dec_params, dec_usize, dec_solver, dec_config, dec_ls, dec_tr_method, dec_solset, dec_lsol,
    dec_point, dec_option, dec_bool, dec_f64, dec_u64, dec_tag. monos.
Qed.
Theorem own_prefix : forall F c k, checkpoint_ok c -> k < List.length (b_enc_checkpoint F c) ->
  b_decode F (firstn k (b_enc_checkpoint F c)) = None.
Proof.
  intros F c k H Hk. unfold b_decode.
  destruct (b_dec_checkpoint F (firstn k (b_enc_checkpoint F c))) as [[a r]|] eqn:E; [|reflexivity]. exfalso.
  apply (b_mono F _ _ _ (skipn k (b_enc_checkpoint F c))) in E. rewrite firstn_skipn in E.
  pose proof (own_file F c [] H) as G. rewrite app_nil_r in G. rewrite G in E.
  assert (L : skipn k (b_enc_checkpoint F c) = []).
  { injection E as _ E. symmetry in E. apply app_eq_nil in E. tauto. }
  apply (f_equal (@List.length _)) in L. rewrite skipn_length in L. revert L Hk.
  change (List.length (@nil ascii)) with 0. generalize (List.length (b_enc_checkpoint F c)). intros; lia.
Qed.
Theorem own_decode : forall F c, checkpoint_ok c -> b_decode F (b_enc_checkpoint F c) = Some (as_kept F c).
Proof. intros F c H. unfold b_decode. rewrite <- (app_nil_r (b_enc_checkpoint F c)), own_file by exact H. reflexivity. Qed.

Lemma long : forall a r, List.length a = 8 -> (N.of_nat (List.length r) < le_value a)%N -> dec_string (a ++ r) = None.
Proof.
  intros a r Ha H. unfold dec_string, pbind, dec_u64. rewrite <- Ha, le_take. destruct (N.leb_spec (le_value a) (N.of_nat (List.length r))); [lia|reflexivity].
Qed.
Lemma f64_any : forall a r, List.length a = 8 -> dec_f64 (a ++ r) = Some (of_bits (le_value a), r).
Proof. intros a r Ha. unfold dec_f64, dec_u64, pbind. rewrite <- Ha, le_take. reflexivity. Qed.
Lemma floats_long : forall c l m a b d r, List.length a = 8 -> List.length b = 8 -> List.length d = 8 ->
  (N.of_nat (List.length r) < le_value d)%N ->
  (n <~ dec_f64 ;; o <~ dec_f64 ;; p <~ dec_string ;; pret (fill c l m n o p)) (a ++ b ++ d ++ r) = None.
Proof.
  intros c l m a b d r Ha Hb Hd H. unfold pbind. rewrite f64_any by exact Ha. rewrite f64_any by exact Hb. rewrite long by auto. reflexivity.
Qed.
Ltac lens := rewrite ?app_length, ?le_length; reflexivity.
Definition ray := mk_features true true.
Definition noray := mk_features false true.
Lemma reader : forall F G c x, checkpoint_ok c -> dec_tail G c (tail F c ++ x) = None -> b_decode G (b_enc_checkpoint F c ++ x) = None.
Proof. intros F G c x H E. unfold b_decode. rewrite enc_parts, <- app_assoc, dec_parts, E by exact H. reflexivity. Qed.
Lemma ts_len : forall c, List.length (str_bytes c) = String.length c.
Proof. exact str_length. Qed.
Lemma take1 : forall n r, dec_le 1 (enc_le 1 n ++ r) = Some ((n mod 256)%N, r).
Proof. intros n r. pose proof (le_take (enc_le 1 n) r) as T. rewrite le_length, enc_mod in T. exact T. Qed.
Lemma take8 : forall a r, List.length a = 8 -> dec_le 8 (a ++ r) = Some (le_value a, r).
Proof. intros a r H. rewrite <- H. apply le_take. Qed.
Lemma bool_any : forall n r, dec_bool (enc_le 1 n ++ r) = None \/ exists b, dec_bool (enc_le 1 n ++ r) = Some (b, r).
Proof.
  intros n r. unfold dec_bool, pbind. rewrite take1. destruct (_ =? 0)%N; [right; exists false; reflexivity|].
  destruct (_ =? 1)%N; [right; exists true; reflexivity|left; reflexivity].
Qed.
Lemma none_rejected : forall c, checkpoint_ok c -> cp_batch c = None -> real_timestamp (cp_timestamp c) ->
  b_decode noray (b_enc_checkpoint ray c) = None.
Proof.
  intros c H Hb [[T1 T2] _]. rewrite <- (app_nil_r (b_enc_checkpoint ray c)). apply reader; [exact H|]. rewrite app_nil_r.
  unfold dec_tail, tail, noray, ray. cbn [f_rayon]. unfold pbind at 1 2, pret at 1 2. rewrite Hb.
  unfold enc_option, enc_bool, enc_string, enc_usize, enc_f64, enc_u64.
  set (A := to_bits _). set (R := to_bits _). set (n := N.of_nat (String.length _)). set (p := if cp_parallel c then _ else _).
  rewrite (enc_split 6 2 A : enc_le 8 A = _), (enc_split 6 2 R : enc_le 8 R = _), (enc_split 6 2 n : enc_le 8 n = _).
  transitivity ((n0 <~ dec_f64 ;; o <~ dec_f64 ;; p0 <~ dec_string ;; pret (fill c None false n0 o p0))
    ((enc_le 1 0 ++ enc_le 1 p ++ enc_le 6 A) ++ (enc_le 2 (A / 256 ^ N.of_nat 6) ++ enc_le 6 R) ++
     (enc_le 2 (R / 256 ^ N.of_nat 6) ++ enc_le 6 n) ++ enc_le 2 (n / 256 ^ N.of_nat 6) ++ str_bytes (cp_timestamp c))).
  { rewrite <- !app_assoc. reflexivity. }
  apply floats_long; try lens. rewrite le_app, !le_length, (le_enc 6).
  - rewrite app_length, le_length. subst n. rewrite <- str_length. change (256 ^ N.of_nat 2)%N with 65536%N. lia.
  - subst n. rewrite <- str_length. change (256 ^ N.of_nat 6)%N with 281474976710656%N. lia.
Qed.
Lemma bits_big : forall x, f64_ok x -> not_tiny x -> (2 ^ 56 <= to_bits x)%N.
Proof.
  intros [s|s|s|s m e] H T; cbn [not_tiny] in T; [contradiction|destruct s; vm_compute; discriminate|destruct s; vm_compute; discriminate|].
  unfold f64_ok in H. cbn [wf] in H. apply bounded_facts in H as (Hm & Hs & He). unfold to_bits.
  destruct (N.ltb_spec (Npos m) (2 ^ 52)) as [L|L]; [specialize (Hs L); lia|].
  assert (75 <= Z.to_N (e + 1075))%N by lia. change (2 ^ 56)%N with (16 * 2 ^ 52)%N. 
  assert (16 * 2 ^ 52 <= Z.to_N (e + 1075) * 2 ^ 52)%N by (apply N.mul_le_mono_r; lia). lia.
Qed.
Lemma some_rejected : forall c b, checkpoint_ok c -> cp_batch c = Some b -> not_tiny (cp_abs_tol c) -> real_timestamp (cp_timestamp c) ->
  b_decode noray (b_enc_checkpoint ray c) = None.
Proof.
  intros c b H Hb Ha [[T1 T2] _]. rewrite <- (app_nil_r (b_enc_checkpoint ray c)). apply reader; [exact H|]. rewrite app_nil_r.
  assert (Hf : f64_ok (cp_abs_tol c)) by (unfold checkpoint_ok in H; tauto).
  pose proof (bits_big _ Hf Ha) as B1. destruct (of_to_bits _ Hf) as [_ B2]. unfold u64_ok in B2.
  unfold dec_tail, tail, noray, ray. cbn [f_rayon]. unfold pbind at 1 2, pret at 1 2. rewrite Hb.
  unfold enc_option, enc_bool, enc_string, enc_usize, enc_f64, enc_u64.
  set (A := to_bits (cp_abs_tol c)) in *. set (R := to_bits (cp_rel_tol c)). set (n := N.of_nat (String.length _)). set (p := if cp_parallel c then _ else _).
  set (k := N.of_nat b).
  rewrite (enc_split 6 2 A : enc_le 8 A = _), (enc_split 6 2 R : enc_le 8 R = _), (enc_split 7 1 k : enc_le 8 k = _).
  transitivity ((n0 <~ dec_f64 ;; o <~ dec_f64 ;; p0 <~ dec_string ;; pret (fill c None false n0 o p0))
    ((enc_le 1 1 ++ enc_le 7 k) ++ (enc_le 1 (k / 256 ^ N.of_nat 7) ++ enc_le 1 p ++ enc_le 6 A) ++
     (enc_le 2 (A / 256 ^ N.of_nat 6) ++ enc_le 6 R) ++ enc_le 2 (R / 256 ^ N.of_nat 6) ++ enc_le 8 n ++ str_bytes (cp_timestamp c))).
  { rewrite <- !app_assoc. reflexivity. }
  change (256 ^ N.of_nat 6)%N with (2 ^ 48)%N.
  apply floats_long; try lens. rewrite le_app, !le_length, (le_enc 2).
  - rewrite !app_length, !le_length. assert (256 <= A / 2 ^ 48)%N by (apply N.div_le_lower_bound; [discriminate|exact B1]). lia.
  - change (256 ^ N.of_nat 2)%N with (2 ^ 16)%N. apply N.div_lt_upper_bound; [discriminate|exact B2].
Qed.
Lemma other_rejected : forall c, checkpoint_ok c -> real_timestamp (cp_timestamp c) -> b_decode ray (b_enc_checkpoint noray c) = None.
Proof.
  intros c H [[T1 T2] T3]. rewrite <- (app_nil_r (b_enc_checkpoint noray c)). apply reader; [exact H|]. rewrite app_nil_r.
  unfold dec_tail, tail, noray, ray. cbn [f_rayon app].
  unfold enc_string, enc_usize, enc_f64, enc_u64. rewrite <- str_length.
  set (A := to_bits (cp_abs_tol c)) in *. set (R := to_bits (cp_rel_tol c)). set (n := N.of_nat (List.length _)).
  remember (str_bytes (cp_timestamp c)) as ts eqn:Hts. clear Hts.
  assert (Hn : (n < 65536)%N) by (subst n; lia).
  assert (Z6 : le_value (enc_le 6 (n / 256 ^ N.of_nat 2)) = 0%N).
  { rewrite enc_mod. change (256 ^ N.of_nat 2)%N with 65536%N. rewrite N.div_small by exact Hn. reflexivity. }
  unfold dec_option. unfold pbind at 1 2 3. rewrite (enc_split 1 7 A : enc_le 8 A = _), <- !app_assoc.
  rewrite take1. change (256 ^ N.of_nat 1)%N with 256%N.
  destruct (A mod 256 =? 0)%N eqn:K0; [|destruct (A mod 256 =? 1)%N eqn:K1; [|reflexivity]].
  - unfold pret at 1. unfold pbind at 1. rewrite (enc_split 1 6 (A / 256) : enc_le 7 (A / 256) = _), <- !app_assoc.
    enough (X : forall m, (n0 <~ dec_f64 ;; o <~ dec_f64 ;; p <~ dec_string ;; pret (fill c None m n0 o p))
      (enc_le 6 (A / 256 / 256 ^ N.of_nat 1) ++ enc_le 8 R ++ enc_le 8 n ++ ts) = None).
    { match goal with |- context [dec_bool (enc_le 1 ?n ++ ?r)] => destruct (bool_any n r) as [->|[m ->]]; [reflexivity|apply X] end. }
    intro m. rewrite (enc_split 2 6 R : enc_le 8 R = _), (enc_split 2 6 n : enc_le 8 n = _).
    destruct ts as [|t1 [|t2 ts]]; [cbn in T1; lia|cbn in T1; lia|]. inversion T3; subst. clear T3.
    transitivity ((n0 <~ dec_f64 ;; o <~ dec_f64 ;; p0 <~ dec_string ;; pret (fill c None m n0 o p0))
      ((enc_le 6 (A / 256 / 256 ^ N.of_nat 1) ++ enc_le 2 R) ++ (enc_le 6 (R / 256 ^ N.of_nat 2) ++ enc_le 2 n) ++
       (enc_le 6 (n / 256 ^ N.of_nat 2) ++ [t1; t2]) ++ ts)).
    { rewrite <- !app_assoc. reflexivity. }
    apply floats_long; try lens. rewrite le_app, le_length, Z6. cbn [le_value]. change (256 ^ N.of_nat 6)%N with (2 ^ 48)%N.
    cbn [List.length] in *. nia.
  - unfold dec_usize, dec_u64, pbind at 1 2, pret at 1. rewrite (enc_split 1 7 R : enc_le 8 R = _), <- !app_assoc.
    rewrite (app_assoc (enc_le 7 (A / 256))).
    rewrite take8 by lens. unfold pret at 1. unfold pbind at 1.
    change (256 ^ N.of_nat 1)%N with 256%N. rewrite (enc_split 1 6 (R / 256) : enc_le 7 (R / 256) = _), <- !app_assoc.
    set (b := Some _).
    enough (X : forall m, (n0 <~ dec_f64 ;; o <~ dec_f64 ;; p <~ dec_string ;; pret (fill c b m n0 o p))
      (enc_le 6 (R / 256 / 256 ^ N.of_nat 1) ++ enc_le 8 n ++ ts) = None).
    { match goal with |- context [dec_bool (enc_le 1 ?n ++ ?r)] => destruct (bool_any n r) as [->|[m ->]]; [reflexivity|apply X] end. }
    intro m. rewrite (enc_split 2 6 n : enc_le 8 n = _).
    destruct ts as [|t1 [|t2 [|t3 [|t4 [|t5 [|t6 [|t7 [|t8 [|t9 [|t10 ts]]]]]]]]]]; try (cbn in T1; lia).
    assert (N10 : N_of_ascii t10 <> 0%N) by (eapply Forall_forall in T3; [exact T3|cbn; tauto]).
    transitivity ((n0 <~ dec_f64 ;; o <~ dec_f64 ;; p0 <~ dec_string ;; pret (fill c b m n0 o p0))
      ((enc_le 6 (R / 256 / 256 ^ N.of_nat 1) ++ enc_le 2 n) ++ (enc_le 6 (n / 256 ^ N.of_nat 2) ++ [t1; t2]) ++
       [t3; t4; t5; t6; t7; t8; t9; t10] ++ ts)).
    { rewrite <- !app_assoc. reflexivity. }
    apply floats_long; try lens. cbn [le_value]. cbn [List.length] in *. nia.
Qed.
