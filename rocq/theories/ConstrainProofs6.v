(** Proofs about [constrain]: tightness for one comparison. *)
From Coq Require Import Bool List Arith.
From Verif Require Import Outcome SetModel Spec SetProofs SetProofs2 Num NumLaws IntervalModel IvlSpec IvlProofs ConstrainModel CondSpec
  ConstrainProofs ConstrainProofs2 ConstrainProofs3 ConstrainProofs4 ConstrainProofs5.
Import ListNotations.

Section Cond.
  Context {O : ordty} (HO : ord_laws O) (dbg : bool) (x : nat).
  Implicit Types (X Y Z : ivl O) (c : cond O) (l r : operand O) (a b : O) (f g : cform O) (rho : nat -> O).

  Lemma below_iff (u : arg O) a : aproper u -> ok a -> o_le a (aupper u) = true <-> exists b, ael u b /\ o_le a b = true.
  Proof.
    intros P Ha. split.
    - intros H. exists (aupper u). split; [now apply (ael_upper HO)|exact H].
    - intros (b & [B1 B2] & H). clear - HO B2 H. ord HO.
  Qed.
  Lemma above_iff (u : arg O) a : aproper u -> ok a -> o_le (alower u) a = true <-> exists b, ael u b /\ o_le b a = true.
  Proof.
    intros P Ha. split.
    - intros H. exists (alower u). split; [now apply (ael_lower HO)|exact H].
    - intros (b & [B1 B2] & H). clear - HO B1 H. ord HO.
  Qed.
  Lemma sbelow_iff (u : arg O) a : aproper u -> ok a -> o_lt a (aupper u) = true <-> exists b, ael u b /\ o_lt a b = true.
  Proof.
    intros P Ha. split.
    - intros H. exists (aupper u). split; [now apply (ael_upper HO)|exact H].
    - intros (b & [B1 B2] & H). clear - HO B2 H. ord HO.
  Qed.
  Lemma sabove_iff (u : arg O) a : aproper u -> ok a -> o_lt (alower u) a = true <-> exists b, ael u b /\ o_lt b a = true.
  Proof.
    intros P Ha. split.
    - intros H. exists (alower u). split; [now apply (ael_lower HO)|exact H].
    - intros (b & [B1 B2] & H). clear - HO B1 H. ord HO.
  Qed.
  Lemma eq_iff (u : arg O) a : (exists b, ael u b /\ o_eq a b = true) <-> ael u a.
  Proof.
    split.
    - intros (b & [B1 B2] & H). split; clear - HO B1 B2 H; ord HO.
    - intros H. exists a. split; [exact H|]. apply (ael_ok HO) in H. clear - HO H. ord HO.
  Qed.
  Lemma le_omin a (p q : O) : ok p -> ok q -> o_le a (omin p q) = true <-> o_le a p = true /\ o_le a q = true.
  Proof.
    intros P Q. split; [|intros [A B]; now apply omin_glb].
    pose proof (omin_l HO _ _ P Q) as A. pose proof (omin_r HO _ _ P Q) as B. intros H. clear - HO A B H. split; ord HO.
  Qed.
  Lemma omax_le a (p q : O) : ok p -> ok q -> o_le (omax p q) a = true <-> o_le p a = true /\ o_le q a = true.
  Proof.
    intros P Q. split; [|intros [A B]; now apply omax_lub].
    pose proof (omax_l HO _ _ P Q) as A. pose proof (omax_r HO _ _ P Q) as B. intros H. clear - HO A B H. split; ord HO.
  Qed.

  (** Case distinction of [dconstrain] on a comparison that is not optional. *)
  Lemma opt_false {A : Type} (k : outcome A) (z : A) : (expects false ;;; k) = Ret z -> False.
  Proof. discriminate. Qed.

  Lemma le_l (v : bset) l r X Z (k : bool) : aproper (op_arg r) -> proper X -> op_is x l = true -> dconstrain dbg x X (CLe v l r) false false = Ret (Z, k) ->
    forall a, el Z a <-> el X a /\ exists b, ael (op_arg r) b /\ o_le a b = true.
  Proof.
    intros Pr PX L E a. cbn [dconstrain] in E. rewrite L in E. destruct (bcontains v true); cbn [andb negb orb] in E; [|discriminate].
    apply bind_inv in E. destruct E as (u & _ & E). apply bind_inv in E. destruct E as (Z' & E & F). injection F as <- _. apply mk_iff in E. destruct E as [-> _].
    destruct (proper_oks HO _ PX) as [X1 X2], (aproper_oks HO _ Pr) as [R1 R2]. unfold el; cbn [lo hi]. rewrite le_omin by assumption. split.
    - intros (A & B & C). split; [auto|]. apply below_iff; [exact Pr| |exact C]. clear - HO C. ord HO.
    - intros [[A B] C]. split; [exact A|]. split; [exact B|]. apply below_iff; [exact Pr| |exact C]. clear - HO B. ord HO.
  Qed.
  Lemma le_r (v : bset) l r X Z (k : bool) : aproper (op_arg l) -> proper X -> op_is x l = false -> op_is x r = true -> dconstrain dbg x X (CLe v l r) false false = Ret (Z, k) ->
    forall a, el Z a <-> el X a /\ exists b, ael (op_arg l) b /\ o_le b a = true.
  Proof.
    intros Pr PX L R E a. cbn [dconstrain] in E. rewrite L, R in E. cbn [andb negb orb expects bind] in E. destruct (bcontains v true); [|discriminate].
    apply bind_inv in E. destruct E as (u & _ & E). apply bind_inv in E. destruct E as (Z' & E & F). injection F as <- _. apply mk_iff in E. destruct E as [-> _].
    destruct (proper_oks HO _ PX) as [X1 X2], (aproper_oks HO _ Pr) as [R1 R2]. unfold el; cbn [lo hi]. rewrite omax_le by assumption. split.
    - intros ((A & B) & C). split; [auto|]. apply above_iff; [exact Pr| |exact A]. clear - HO C. ord HO.
    - intros [[A B] C]. split; [|exact B]. split; [|exact A]. apply above_iff; [exact Pr| |exact C]. clear - HO B. ord HO.
  Qed.
  Lemma lt_l (v : bset) l r X Z (k : bool) : rel_exact o_lt v (op_arg l) (op_arg r) -> aproper (op_arg r) -> proper X -> op_is x l = true ->
    dconstrain dbg x X (CLt v l r) false false = Ret (Z, k) ->
    forall a, el Z a <-> el X a /\ exists b, ael (op_arg r) b /\ (if o_disc O then o_lt a b else o_le a b) = true.
  Proof.
    intros [_ Vx] Pr PX L E a. cbn [dconstrain] in E. rewrite L in E. destruct (bcontains v true) eqn:Ev; cbn [andb negb orb] in E; [|discriminate].
    apply bind_inv in E. destruct E as (u & _ & E). apply bind_inv in E. destruct E as (p & Ep & E).
    apply bind_inv in E. destruct E as (Z' & E & F). injection F as <- _. apply mk_iff in E. destruct E as [-> _].
    apply bmember_iff in Ev. apply Vx in Ev. destruct Ev as (y & z & _ & [_ Hz] & Hyz).
    assert (Lt : o_lt y (aupper (op_arg r)) = true) by (clear - HO Hyz Hz; ord HO).
    destruct (pred_below HO _ _ Lt) as (q & Eq & Hq & Q1 & Q2 & Q3). rewrite Ep in Eq. injection Eq as <-.
    destruct (proper_oks HO _ PX) as [X1 X2], (aproper_oks HO _ Pr) as [R1 R2]. assert (Hp : ok p) by (clear - HO Hq; ord HO).
    unfold el; cbn [lo hi]. rewrite le_omin by assumption. destruct (o_disc O) eqn:D.
    - split.
      + intros (A & B & C). split; [auto|]. apply sbelow_iff; [exact Pr| |now apply Q2]. clear - HO C. ord HO.
      + intros [[A B] C]. split; [exact A|]. split; [exact B|]. apply Q1. apply sbelow_iff; [exact Pr| |exact C]. clear - HO B. ord HO.
    - rewrite (Q3 eq_refl). split.
      + intros (A & B & C). split; [auto|]. apply below_iff; [exact Pr| |exact C]. clear - HO C. ord HO.
      + intros [[A B] C]. split; [exact A|]. split; [exact B|]. apply below_iff; [exact Pr| |exact C]. clear - HO B. ord HO.
  Qed.
  Lemma lt_r (v : bset) l r X Z (k : bool) : rel_exact o_lt v (op_arg l) (op_arg r) -> aproper (op_arg l) -> proper X -> op_is x l = false -> op_is x r = true ->
    dconstrain dbg x X (CLt v l r) false false = Ret (Z, k) ->
    forall a, el Z a <-> el X a /\ exists b, ael (op_arg l) b /\ (if o_disc O then o_lt b a else o_le b a) = true.
  Proof.
    intros [_ Vx] Pr PX L R E a. cbn [dconstrain] in E. rewrite L, R in E. cbn [andb negb orb expects bind] in E. destruct (bcontains v true) eqn:Ev; [|discriminate].
    apply bind_inv in E. destruct E as (u & _ & E). apply bind_inv in E. destruct E as (p & Ep & E).
    apply bind_inv in E. destruct E as (Z' & E & F). injection F as <- _. apply mk_iff in E. destruct E as [-> _].
    apply bmember_iff in Ev. apply Vx in Ev. destruct Ev as (y & z & [Hy _] & _ & Hyz).
    assert (Lt : o_lt (alower (op_arg l)) z = true) by (clear - HO Hyz Hy; ord HO).
    destruct (succ_above HO _ _ Lt) as (q & Eq & Hq & Q1 & Q2 & Q3). rewrite Ep in Eq. injection Eq as <-.
    destruct (proper_oks HO _ PX) as [X1 X2], (aproper_oks HO _ Pr) as [R1 R2]. assert (Hp : ok p) by (clear - HO Hq; ord HO).
    unfold el; cbn [lo hi]. rewrite omax_le by assumption. destruct (o_disc O) eqn:D.
    - split.
      + intros ((A & B) & C). split; [auto|]. apply sabove_iff; [exact Pr| |now apply Q2]. clear - HO C. ord HO.
      + intros [[A B] C]. split; [|exact B]. split; [|exact A]. apply Q1. apply sabove_iff; [exact Pr| |exact C]. clear - HO B. ord HO.
    - rewrite (Q3 eq_refl). split.
      + intros ((A & B) & C). split; [auto|]. apply above_iff; [exact Pr| |exact A]. clear - HO C. ord HO.
      + intros [[A B] C]. split; [|exact B]. split; [|exact A]. apply above_iff; [exact Pr| |exact C]. clear - HO B. ord HO.
  Qed.
  Lemma eq_lr (v : bset) l r X Z (k : bool) : aproper (op_arg l) -> aproper (op_arg r) -> op_is x l || op_is x r = true ->
    dconstrain dbg x X (CEq v l r) false false = Ret (Z, k) -> forall a, el Z a <-> ael (op_arg l) a /\ ael (op_arg r) a.
  Proof.
    intros Pl Pr L E a. cbn [dconstrain] in E. rewrite L in E. destruct (bcontains v true); [|discriminate]. cbv zeta in E.
    apply bind_inv in E. destruct E as (u & _ & E). apply bind_inv in E. destruct E as (Z' & E & F). injection F as <- _. apply mk_iff in E. destruct E as [-> _].
    destruct (aproper_oks HO _ Pl) as [L1 L2], (aproper_oks HO _ Pr) as [R1 R2]. unfold el, ael; cbn [lo hi]. rewrite omax_le, le_omin by assumption. tauto.
  Qed.

  (** [!=] for integers and iterators; [u] is the other operand. *)
  Definition differs (u : arg O) a : Prop := exists b, ael u b /\ negb (o_eq a b) = true.
  Lemma differs_iff (u : arg O) a : aproper u -> ok a -> differs u a <-> negb (o_eq a (alower u)) = true \/ negb (o_eq a (aupper u)) = true.
  Proof.
    intros P Ha. split.
    - intros (b & [B1 B2] & N). destruct (negb (o_eq a (alower u))) eqn:E1; [now left|right]. clear - HO B1 B2 N E1. ord HO.
    - intros [H|H]; [exists (alower u)|exists (aupper u)]; auto using (ael_lower HO), (ael_upper HO).
  Qed.
  Lemma ne_hull_whole (u : arg O) X : aproper u -> proper X -> differs u (lo X) -> differs u (hi X) -> is_hull (fun a => el X a /\ differs u a) X.
  Proof.
    intros P PX D1 D2. destruct (proper_oks HO _ PX) as [X1 X2]. split; [tauto|].
    split; [exists (lo X)|exists (hi X)]; (split; [split; [auto using (el_lower HO), (el_upper HO)|assumption]|]).
    - clear - HO X1. ord HO.
    - clear - HO X2. ord HO.
  Qed.
  Lemma ne_hull_lo (u : arg O) X (s : O) : o_disc O = true -> aproper u -> o_lt (lo X) (hi X) = true -> o_eq (alower u) (aupper u) = true -> o_eq (lo X) (alower u) = true ->
    o_succ (lo X) = Ret s -> forall Z, mk s (hi X) = Ret Z -> is_hull (fun a => el X a /\ differs u a) Z.
  Proof.
    intros D Pu Lt S1 S2 Es Z Em. apply mk_iff in Em. destruct Em as [-> _].
    destruct (succ_above HO _ _ Lt) as (q & Eq & Hq & Q1 & Q2 & _). rewrite Es in Eq. injection Eq as <-. specialize (Q2 D).
    pose proof (Q1 _ Lt) as Shi. assert (Ss : o_le s s = true) by (clear - HO Hq; ord HO).
    assert (Dif : forall a, o_lt (lo X) a = true -> differs u a).
    { intros a Ha. apply differs_iff; [exact Pu|clear - HO Ha; ord HO|]. left. clear - HO Ha S2. ord HO. }
    split; [|split].
    - intros a [[A B] N]. split; [cbn|exact B]. apply Q1. apply differs_iff in N; [|exact Pu|clear - HO A; ord HO]. clear - HO A N S1 S2. destruct N as [N|N]; ord HO.
    - exists s. split; [|cbn; clear - HO Ss; ord HO]. split; [split; [|exact Shi]|apply Dif, Q2, Ss]. pose proof (Q2 _ Ss) as K. clear - HO K. ord HO.
    - exists (hi X). split; [|cbn; clear - HO Lt; ord HO]. split; [split; clear - HO Lt; ord HO|now apply Dif].
  Qed.
  Lemma ne_hull_hi (u : arg O) X (s : O) : o_disc O = true -> aproper u -> o_lt (lo X) (hi X) = true -> o_eq (alower u) (aupper u) = true -> o_eq (hi X) (alower u) = true ->
    o_pred (hi X) = Ret s -> forall Z, mk (lo X) s = Ret Z -> is_hull (fun a => el X a /\ differs u a) Z.
  Proof.
    intros D Pu Lt S1 S2 Es Z Em. apply mk_iff in Em. destruct Em as [-> _].
    destruct (pred_below HO _ _ Lt) as (q & Eq & Hq & Q1 & Q2 & _). rewrite Es in Eq. injection Eq as <-. specialize (Q2 D).
    pose proof (Q1 _ Lt) as Slo. assert (Ss : o_le s s = true) by (clear - HO Hq; ord HO).
    assert (Dif : forall a, o_lt a (hi X) = true -> differs u a).
    { intros a Ha. apply differs_iff; [exact Pu|clear - HO Ha; ord HO|]. left. clear - HO Ha S2. ord HO. }
    split; [|split].
    - intros a [[A B] N]. split; [exact A|cbn]. apply Q1. apply differs_iff in N; [|exact Pu|clear - HO A; ord HO]. clear - HO B N S1 S2. destruct N as [N|N]; ord HO.
    - exists (lo X). split; [|cbn; clear - HO Lt; ord HO]. split; [split; clear - HO Lt; ord HO|now apply Dif].
    - exists s. split; [|cbn; clear - HO Ss; ord HO]. split; [split; [exact Slo|]|apply Dif, Q2, Ss]. pose proof (Q2 _ Ss) as K. clear - HO K. ord HO.
  Qed.

  Lemma ne_l (v : bset) l r X Z (k : bool) : o_disc O = true -> rel_exact (fun a b => negb (o_eq a b)) v (op_arg l) (op_arg r) -> aproper (op_arg r) -> proper X ->
    op_is x l = true -> op_is x r = false -> op_arg l = Iv X -> dconstrain dbg x X (CNe v l r) false false = Ret (Z, k) -> is_hull (fun a => el X a /\ differs (op_arg r) a) Z.
  Proof.
    intros D [_ Vx] Pr PX L R Ol E. cbn [dconstrain] in E. rewrite L, R, D in E. cbn [orb andb] in E. destruct (bcontains v true) eqn:Ev; [|discriminate]. cbv zeta in E.
    apply bind_inv in E. destruct E as (u & _ & E). rewrite Ol in E. cbn [alower aupper] in E.
    apply bmember_iff in Ev. apply Vx in Ev. destruct Ev as (y & z & Hy & Hz & Hyz). rewrite Ol in Hy. destruct Hy as [Y1 Y2], Hz as [Z1 Z2]. cbn [alower aupper] in Y1, Y2.
    destruct (proper_oks HO _ PX) as [X1 X2]. unfold proper in PX. set (rl := alower (op_arg r)) in *. set (rh := aupper (op_arg r)) in *.
    destruct (negb (o_eq (lo X) (hi X)) && o_eq rl rh && o_eq (lo X) rl) eqn:C1.
    { rewrite !andb_true_iff in C1. destruct C1 as ((N & S1) & S2). apply bind_inv in E. destruct E as (s & Es & E). apply bind_inv in E. destruct E as (Z' & E & F). injection F as <- _.
      eapply ne_hull_lo; eauto. clear - HO N PX. ord HO. }
    destruct (negb (o_eq (lo X) (hi X)) && o_eq rl rh && o_eq (hi X) rl) eqn:C2.
    { rewrite !andb_true_iff in C2. destruct C2 as ((N & S1) & S2). apply bind_inv in E. destruct E as (s & Es & E). apply bind_inv in E. destruct E as (Z' & E & F). injection F as <- _.
      eapply ne_hull_hi; eauto. clear - HO N PX. ord HO. }
    injection E as <- _. apply ne_hull_whole; auto; apply differs_iff; auto; fold rl rh.
    - destruct (negb (o_eq (lo X) rl)) eqn:N1; [now left|right]. destruct (negb (o_eq (lo X) rh)) eqn:N2; [reflexivity|exfalso].
      clear C2. clear - HO C1 N1 N2 Y1 Y2 Z1 Z2 Hyz. apply negb_false_iff in N1. rewrite N1, andb_true_r in C1. apply andb_false_iff in C1.
      destruct C1 as [C1|C1]; ord HO.
    - destruct (negb (o_eq (hi X) rl)) eqn:N1; [now left|right]. destruct (negb (o_eq (hi X) rh)) eqn:N2; [reflexivity|exfalso].
      clear C1. clear - HO C2 N1 N2 Y1 Y2 Z1 Z2 Hyz. apply negb_false_iff in N1. rewrite N1, andb_true_r in C2. apply andb_false_iff in C2.
      destruct C2 as [C2|C2]; ord HO.
  Qed.
  Lemma ne_r (v : bset) l r X Z (k : bool) : o_disc O = true -> rel_exact (fun a b => negb (o_eq a b)) v (op_arg l) (op_arg r) -> aproper (op_arg l) -> proper X ->
    op_is x l = false -> op_is x r = true -> op_arg r = Iv X -> dconstrain dbg x X (CNe v l r) false false = Ret (Z, k) -> is_hull (fun a => el X a /\ differs (op_arg l) a) Z.
  Proof.
    intros D [_ Vx] Pr PX L R Ol E. cbn [dconstrain] in E. rewrite L, R, D in E. cbn [orb andb] in E. destruct (bcontains v true) eqn:Ev; [|discriminate]. cbv zeta in E.
    apply bind_inv in E. destruct E as (u & _ & E). rewrite Ol in E. cbn [alower aupper] in E.
    apply bmember_iff in Ev. apply Vx in Ev. destruct Ev as (z & y & Hz & Hy & Hyz). rewrite Ol in Hy. destruct Hy as [Y1 Y2], Hz as [Z1 Z2]. cbn [alower aupper] in Y1, Y2.
    destruct (proper_oks HO _ PX) as [X1 X2]. unfold proper in PX. set (rl := alower (op_arg l)) in *. set (rh := aupper (op_arg l)) in *.
    destruct (negb (o_eq (lo X) (hi X)) && o_eq rl rh && o_eq (lo X) rl) eqn:C1.
    { rewrite !andb_true_iff in C1. destruct C1 as ((N & S1) & S2). apply bind_inv in E. destruct E as (s & Es & E). apply bind_inv in E. destruct E as (Z' & E & F). injection F as <- _.
      eapply ne_hull_lo; eauto. clear - HO N PX. ord HO. }
    destruct (negb (o_eq (lo X) (hi X)) && o_eq rl rh && o_eq (hi X) rl) eqn:C2.
    { rewrite !andb_true_iff in C2. destruct C2 as ((N & S1) & S2). apply bind_inv in E. destruct E as (s & Es & E). apply bind_inv in E. destruct E as (Z' & E & F). injection F as <- _.
      eapply ne_hull_hi; eauto. clear - HO N PX. ord HO. }
    injection E as <- _. apply ne_hull_whole; auto; apply differs_iff; auto; fold rl rh.
    - destruct (negb (o_eq (lo X) rl)) eqn:N1; [now left|right]. destruct (negb (o_eq (lo X) rh)) eqn:N2; [reflexivity|exfalso].
      clear C2. clear - HO C1 N1 N2 Y1 Y2 Z1 Z2 Hyz. apply negb_false_iff in N1. rewrite N1, andb_true_r in C1. apply andb_false_iff in C1.
      destruct C1 as [C1|C1]; ord HO.
    - destruct (negb (o_eq (hi X) rl)) eqn:N1; [now left|right]. destruct (negb (o_eq (hi X) rh)) eqn:N2; [reflexivity|exfalso].
      clear C1. clear - HO C2 N1 N2 Y1 Y2 Z1 Z2 Hyz. apply negb_false_iff in N1. rewrite N1, andb_true_r in C2. apply andb_false_iff in C2.
      destruct C2 as [C2|C2]; ord HO.
  Qed.

  Lemma constrain_rel_inv (R : rel) (s t : term O) X Z : legal (GRel R s t) -> constrain_by dbg x X (GRel R s t) = Ret Z ->
    exists k, dconstrain dbg x X (rel_value R s t) false false = Ret (Z, k).
  Proof.
    intros L H. unfold constrain_by in H. rewrite (rel_build HO dbg R s t L) in H. cbn [bind] in H. unfold constrain in H.
    apply bind_inv in H. destruct H as ([Z' k] & D & H). apply bind_inv in H. destruct H as (u & _ & H). injection H as <-. eauto.
  Qed.
  Lemma term_of (s : term O) X : tmentions x s = true -> (match s with TVar i Y => i = x -> Y = X | TVal _ => True end) ->
    op_arg (operand_of s) = Iv X /\ forall v, tel s v <-> el X v.
  Proof.
    destruct s as [i Y|a]; cbn; [|discriminate]. intros E H. apply Nat.eqb_eq in E. rewrite (H E). split; [reflexivity|]. reflexivity.
  Qed.
  Lemma sol_l (R : rel) (s t : term O) X v : tmentions x s = true -> tmentions x t = false -> (forall v, tel s v <-> el X v) ->
    solution x R s t v <-> el X v /\ exists b, ael (op_arg (operand_of t)) b /\ rel_holds R v b = true.
  Proof.
    intros S T Hs. unfold solution. rewrite S, T, Hs. split.
    - intros [(_ & A & b & B & C)|(A & _)]; [|discriminate]. split; [exact A|]. exists b. now rewrite term_el.
    - intros (A & b & B & C). left. split; [reflexivity|]. split; [exact A|]. exists b. now rewrite <- term_el.
  Qed.
  Lemma sol_r (R : rel) (s t : term O) X v : tmentions x s = false -> tmentions x t = true -> (forall v, tel t v <-> el X v) ->
    solution x R s t v <-> el X v /\ exists b, ael (op_arg (operand_of s)) b /\ rel_holds R b v = true.
  Proof.
    intros S T Ht. unfold solution. rewrite S, T, Ht. split.
    - intros [(A & _)|(_ & A & b & B & C)]; [discriminate|]. split; [exact A|]. exists b. now rewrite term_el.
    - intros (A & b & B & C). right. split; [reflexivity|]. split; [exact A|]. exists b. now rewrite <- term_el.
  Qed.

  Lemma constrain_tight (R : rel) (s t : term O) X Z : legal (GRel R s t) -> proper X -> occurs_as x X (GRel R s t) -> R <> RNe ->
    xorb (tmentions x s) (tmentions x t) = true -> constrain_by dbg x X (GRel R s t) = Ret Z ->
    forall v, el Z v <-> solution x (if o_disc O then R else rel_weak R) s t v.
  Proof.
    intros L PX [Os Ot] NR M H v. destruct (constrain_rel_inv _ _ _ _ _ L H) as [k D]. clear H.
    pose proof (proj1 (rel_wfc HO R s t L)) as W.
    pose proof (op_is_term x s) as Is. pose proof (op_is_term x t) as It.
    destruct (tmentions x s) eqn:Ms, (tmentions x t) eqn:Mt; cbn in M; try discriminate M; clear M.
    - destruct (term_of _ _ Ms Os) as [As Es]. rewrite (sol_l _ _ _ X v Ms Mt Es).
      destruct R; try (exfalso; now apply NR); cbn [rel_value wfc] in *; destruct W as (Pl & Pr & W).
      + replace (if o_disc O then REq else rel_weak REq) with REq by now destruct (o_disc O). cbn [rel_holds].
        assert (Io : op_is x (operand_of s) || op_is x (operand_of t) = true) by now rewrite Is.
        rewrite (eq_lr _ _ _ X Z k Pl Pr Io D). rewrite As, (eq_iff (op_arg (operand_of t)) v). reflexivity.
      + rewrite (lt_l _ _ _ X Z k W Pr PX Is D). destruct (o_disc O); reflexivity.
      + replace (if o_disc O then RLe else rel_weak RLe) with RLe by now destruct (o_disc O). exact (le_l _ _ _ X Z k Pr PX Is D v).
      + rewrite (lt_r _ _ _ X Z k W Pl PX It Is D). destruct (o_disc O); reflexivity.
      + replace (if o_disc O then RGe else rel_weak RGe) with RGe by now destruct (o_disc O). exact (le_r _ _ _ X Z k Pl PX It Is D v).
    - destruct (term_of _ _ Mt Ot) as [At Et]. rewrite (sol_r _ _ _ X v Ms Mt Et).
      destruct R; try (exfalso; now apply NR); cbn [rel_value wfc] in *; destruct W as (Pl & Pr & W).
      + replace (if o_disc O then REq else rel_weak REq) with REq by now destruct (o_disc O). cbn [rel_holds].
        assert (Io : op_is x (operand_of s) || op_is x (operand_of t) = true) by now rewrite Is, It.
        rewrite (eq_lr _ _ _ X Z k Pl Pr Io D). rewrite At. change (ael (Iv X) v) with (el X v). rewrite and_comm.
        apply and_iff_compat_l. rewrite <- (eq_iff (op_arg (operand_of s)) v).
        split; intros (b & B1 & B2); exists b; (split; [exact B1|clear - HO B2; ord HO]).
      + rewrite (lt_r _ _ _ X Z k W Pl PX Is It D). destruct (o_disc O); reflexivity.
      + replace (if o_disc O then RLe else rel_weak RLe) with RLe by now destruct (o_disc O). exact (le_r _ _ _ X Z k Pl PX Is It D v).
      + rewrite (lt_l _ _ _ X Z k W Pr PX It D). destruct (o_disc O); reflexivity.
      + replace (if o_disc O then RGe else rel_weak RGe) with RGe by now destruct (o_disc O). exact (le_l _ _ _ X Z k Pr PX It D v).
  Qed.
  Lemma constrain_ne_hull (s t : term O) X Z : legal (GRel RNe s t) -> proper X -> occurs_as x X (GRel RNe s t) -> o_disc O = true ->
    xorb (tmentions x s) (tmentions x t) = true -> constrain_by dbg x X (GRel RNe s t) = Ret Z -> is_hull (solution x RNe s t) Z.
  Proof.
    intros L PX [Os Ot] Di M H. destruct (constrain_rel_inv _ _ _ _ _ L H) as [k D]. clear H.
    pose proof (proj1 (rel_wfc HO RNe s t L)) as W. cbn [rel_value wfc] in *. destruct W as (Pl & Pr & W).
    pose proof (op_is_term x s) as Is. pose proof (op_is_term x t) as It.
    destruct (tmentions x s) eqn:Ms, (tmentions x t) eqn:Mt; cbn in M; try discriminate M; clear M.
    - destruct (term_of _ _ Ms Os) as [As Es]. pose proof (ne_l _ _ _ X Z k Di W Pr PX Is It As D) as K.
      eapply is_hull_ext; [|exact K]. intros v. symmetry. exact (sol_l _ _ _ X v Ms Mt Es).
    - destruct (term_of _ _ Mt Ot) as [At Et]. pose proof (ne_r _ _ _ X Z k Di W Pl PX Is It At D) as K.
      eapply is_hull_ext; [|exact K]. intros v. rewrite (sol_r _ _ _ X v Ms Mt Et). apply and_iff_compat_l. unfold differs. cbn [rel_holds].
      split; intros (b & B1 & B2); exists b; (split; [exact B1|clear - HO B2; ord HO]).
  Qed.
End Cond.
