(** Proofs for C54: [render] writes the pieces of the tree, in order. *)
From Verif Require Import PyStr Tokeniser Ast AstLib Parser Render RenderEq Api Lib SpecTaken ProofTaken ProofSpelled.
Local Open Scope str_scope.
Local Open Scope list_scope.

Definition says (c : node) : Prop := forall m t, render m c = Ok t -> M (pieces c) t.
Lemma says_list : forall m l ts, (forall c, In c l -> says c) -> rmap (render m) l = Ok ts -> Ms l ts.
Proof.
  intros m l ts H E. apply rmap_Ok in E. induction E; constructor.
  - apply H with (m := m); [left|]; auto.
  - apply IHE. intros. apply H. right. auto.
Qed.
Ltac ok H := apply Ok_inj in H; subst.
Ltac key := apply M_one; constructor.
(** [pre k]: the goal's text begins with the words [k] *)
Ltac word ks := match goal with |- M _ (?s ++ ?t) => let L := constr:(map Key ks) in
  match goal with |- M ?l _ => let r := eval cbn [map app] in L in
    apply (M_app r s); [apply (M_lit ks); reflexivity|] end end.

Lemma says_select : forall exprs a d don f w g h o l off semi,
  (forall c, In c (children (NSelect exprs a d don f w g h o l off semi)) -> says c) ->
  says (NSelect exprs a d don f w g h o l off semi).
Proof.
  intros exprs a d don f w g h o l off semi IH m t H. cbn [children] in IH.
  assert (IHe : forall c, In c exprs -> says c) by (intros; apply IH; rewrite ?in_app_iff; auto).
  assert (IHd : forall c, In c (ollist don) -> says c) by (intros; apply IH; rewrite ?in_app_iff; auto).
  assert (IHf : forall c, In c (olist f) -> says c) by (intros; apply IH; rewrite ?in_app_iff; auto).
  assert (IHw : forall c, In c (olist w) -> says c) by (intros; apply IH; rewrite ?in_app_iff; auto).
  assert (IHg : forall c, In c (match g with Some (a, _, _) => a | None => [] end) -> says c) by (intros; apply IH; rewrite ?in_app_iff; tauto).
  assert (IHh : forall c, In c (olist h) -> says c) by (intros; apply IH; rewrite ?in_app_iff; tauto).
  assert (IHo : forall c, In c (ollist o) -> says c) by (intros; apply IH; rewrite ?in_app_iff; tauto).
  assert (IHl : forall c, In c (match l with Some (_, Some x) => [x] | _ => [] end) -> says c) by (intros; apply IH; rewrite ?in_app_iff; tauto).
  assert (IHoff : forall c, In c (olist off) -> says c) by (intros; apply IH; rewrite ?in_app_iff; tauto).
  clear IH.
  assert (Q : m = Str \/ m <> Str) by (destruct m; auto; right; discriminate).
  destruct Q as [->|NS].
  { left. cbn [render] in H. cbn [py_repr] in H. repeat inv_bind H. ok H. reflexivity. }
  cbn [render pieces] in *.
  assert (X : forall x y : R str, match m with Str => x | _ => y end = y) by (intros; destruct m; congruence). rewrite X in H. clear X.
  set (L := Key "select" :: _).
  inv_bind H. rename a0 into td. rename Hb into Ed.
  inv_bind H. rename a0 into te. rename Hb into Ee. apply says_list in Ee; auto.
  inv_bind H. rename a0 into tf. rename Hb into Ef.
  inv_bind H. rename a0 into tw. rename Hb into Ew.
  inv_bind H. rename a0 into tg. rename Hb into Eg.
  inv_bind H. rename a0 into th. rename Hb into Eh.
  inv_bind H. rename a0 into to. rename Hb into Eo.
  inv_bind H. rename a0 into tl. rename Hb into El.
  inv_bind H. rename a0 into toff. rename Hb into Eoff.
  assert (Md : M ((if a then [Key "all"] else []) ++ (if d then [Key "distinct"] else []) ++ match don with Some l => Key "on" :: flat_map pieces l | None => [] end) td).
  { destruct a; [ok Ed; apply M_left; apply (M_lit ["all"]); reflexivity|]. cbn [app]. destruct d; [|ok Ed; apply M_none].
    destruct don as [[|x r]|]; [ok Ed; apply M_left; apply (M_lit ["distinct"]); reflexivity| |ok Ed; apply M_left; apply (M_lit ["distinct"]); reflexivity].
    inv_bind Ed. ok Ed. apply says_list in Hb; [|exact IHd].
    change (M ([Key "distinct"; Key "on"] ++ flat_map pieces (x :: r)) (" DISTINCT ON (" ++ join ", " a ++ ")")).
    apply M_app; [apply (M_lit ["distinct"; "on"]); reflexivity|]. apply M_post; auto. apply M_join; auto. }
  assert (Me : M (flat_map pieces exprs) (match te with [e] => " " ++ e | _ => nl ++ " " ++ join ("," ++ nl ++ " ") (map indent te) end)).
  { assert (X : M (flat_map pieces exprs) (nl ++ " " ++ join ("," ++ nl ++ " ") (map indent te))).
    { apply M_pre; auto. apply M_pre; auto. apply M_join; auto. apply Ms_indent. auto. }
    destruct te as [|x [|y te]]; auto. inversion Ee as [|? ? ? ? H1 H2]; subst. inversion H2; subst. cbn [flat_map]. rewrite app_nil_r. apply M_pre; auto. }
  assert (Mf : M match f with Some f => Key "from" :: pieces f | None => [] end tf).
  { destruct f as [x|]; [|ok Ef; apply M_none]. inv_bind Ef. ok Ef. change (Key "from" :: pieces x) with ([Key "from"] ++ pieces x). rewrite app_assoc.
    apply M_app; [apply (M_lit ["from"]); reflexivity|]. eapply IHf; [left; reflexivity|eauto]. }
  assert (Mw : M match w with Some f => Key "where" :: pieces f | None => [] end tw).
  { destruct w as [x|]; [|ok Ew; apply M_none]. inv_bind Ew. ok Ew. change (Key "where" :: pieces x) with ([Key "where"] ++ pieces x). rewrite app_assoc.
    apply M_app; [apply (M_lit ["where"]); reflexivity|]. eapply IHw; [left; reflexivity|eauto]. }
  assert (Mg : M match g with
       | Some (args, rollup, each) =>
         Key "group" :: (if each then [Key "each"] else []) ++ Key "by" :: (if rollup then [Key "rollup"] else [])
         ++ flat_map pieces args
       | None => [] end tg).
  { destruct g as [[[args rollup] each]|]; [|ok Eg; apply M_none]. inv_bind Eg. ok Eg.
    change (M ([Key "group"] ++ (if each then [Key "each"] else []) ++ [Key "by"] ++ (if rollup then [Key "rollup"] else []) ++ flat_map pieces args)
      (nl ++ "GROUP " ++ (if each then "EACH " else "") ++ "BY" ++ (if rollup then " ROLLUP" else "") ++ a0)).
    apply M_pre; auto. apply M_app; [apply (M_lit ["group"]); reflexivity|].
    apply M_app; [destruct each; [apply (M_lit ["each"])|apply (M_lit [])]; reflexivity|].
    apply M_app; [apply (M_lit ["by"]); reflexivity|].
    apply M_app; [destruct rollup; [apply (M_lit ["rollup"])|apply (M_lit [])]; reflexivity|].
    destruct args as [|x [|y args]]; [discriminate| |].
    - inv_bind Hb. ok Hb. cbn [flat_map]. rewrite app_nil_r. apply M_pre; auto. eapply IHg; [left; reflexivity|eauto].
    - inv_bind Hb. ok Hb. apply says_list in Hb0; [|exact IHg]. apply M_indent. apply M_pre; auto. apply M_join; auto. }
  assert (Mh : M match h with Some f => Key "having" :: pieces f | None => [] end th).
  { destruct h as [x|]; [|ok Eh; apply M_none]. inv_bind Eh. ok Eh. change (Key "having" :: pieces x) with ([Key "having"] ++ pieces x). rewrite app_assoc.
    apply M_app; [apply (M_lit ["having"]); reflexivity|]. eapply IHh; [left; reflexivity|eauto]. }
  assert (Mo : M match o with Some l => Key "order" :: Key "by" :: flat_map pieces l | None => [] end to).
  { destruct o as [x|]; [|ok Eo; apply M_none]. inv_bind Eo. inv_bind Eo. ok Eo. change (Key "order" :: Key "by" :: flat_map pieces x) with ([Key "order"; Key "by"] ++ flat_map pieces x). rewrite app_assoc.
    apply M_app; [apply (M_lit ["order"; "by"]); reflexivity|]. apply says_list in Hb; [|exact IHo]. eapply M_order; eauto. }
  assert (Ml : M match l with
       | Some (true, _) => [Key "limit"; Key "all"]
       | Some (false, Some e) => Key "limit" :: pieces e
       | Some (false, None) => [Key "limit"; Text "None"]
       | None => [] end tl).
  { destruct l as [[[|] [x|]]|]; [| | | |ok El; apply M_none].
    - ok El. apply (M_lit ["limit"; "all"]). reflexivity.
    - ok El. apply (M_lit ["limit"; "all"]). reflexivity.
    - inv_bind El. ok El. change (Key "limit" :: pieces x) with ([Key "limit"] ++ pieces x). rewrite app_assoc.
      apply M_app; [apply (M_lit ["limit"]); reflexivity|]. eapply IHl; [left; reflexivity|eauto].
    - ok El. change (M ([Key "limit"] ++ [Text "None"]) ((nl ++ "LIMIT ") ++ "None")). apply M_app; [apply (M_lit ["limit"]); reflexivity|apply M_one; constructor]. }
  assert (Moff : M match off with Some e => Key "offset" :: pieces e | None => [] end toff).
  { destruct off as [x|]; [|ok Eoff; apply M_none]. inv_bind Eoff. ok Eoff. change (Key "offset" :: pieces x) with ([Key "offset"] ++ pieces x). rewrite app_assoc.
    apply M_app; [apply (M_lit ["offset"]); reflexivity|]. eapply IHoff; [left; reflexivity|eauto]. }
  clear IHe IHd IHf IHw IHg IHh IHo IHl IHoff Ed Ee Ef Ew Eg Eh Eo El Eoff. ok H.
  match goal with |- context [" " ++ indent ?x] => set (T := x) end.
  assert (MT : forall u, M (if semi then [Text ";"] else []) u -> M L (T ++ u)).
  { intros u U. subst L T. rewrite <- !app_assoc.
    match goal with |- M (?k :: ?r) (?s ++ ?t) => change (M ([k] ++ r) (s ++ t)) end. apply M_app; [apply (M_lit ["select"]); reflexivity|].
    match goal with |- M (?A ++ ?D ++ ?O ++ ?R) (td ++ ?r) =>
      replace (A ++ D ++ O ++ R) with ((A ++ D ++ O) ++ R) by (rewrite <- !app_assoc; reflexivity) end.
    repeat (apply M_app; [assumption|]). exact U. }
  assert (M1 : M L T) by (rewrite <- (app_nil_r T); apply MT; apply M_none).
  assert (M2 : M L (T ++ (if semi then ";" else []))) by (apply MT; destruct semi; [apply M_one; constructor|apply M_none]).
  destruct m; try congruence; auto; try (apply M_pre; auto; apply M_indent; auto); try (apply M_finish; auto).
  apply M_side. apply M_pre; auto. apply M_indent. auto.
Qed.

Lemma says_all : forall n, says n.
Proof.
  induction n as [n IH] using node_ind'. destruct n; [apply says_select; exact IH|..]; intros m t H; cbn [children pieces] in *.
  - (* With *) rewrite render_NWith in H. assert (NS : m <> Str) by (intros ->; discriminate).
    assert (X : forall x y : R str, match m with Str => x | _ => y end = y) by (intros; destruct m; congruence). rewrite X in H. clear X.
    inv_bind H. inv_bind H. ok H. apply M_finish. change (M ([Key "with"] ++ flat_map (fun q => Text (fst q) :: Key "as" :: pieces (snd q)) queries ++ pieces n) ("WITH " ++ join ("," ++ nl) a ++ nl ++ a0)).
    apply M_app; [apply (M_lit ["with"]); reflexivity|]. apply M_app.
    + assert (K : Forall2 (fun (q : str * node) t => M (Text (fst q) :: Key "as" :: pieces (snd q)) t) queries a).
      { apply rmap_Ok in Hb. clear Hb0. assert (Y : forall q, In q queries -> says (snd q)) by (intros q I; apply IH; rewrite in_app_iff; left; apply in_map; auto).
        clear IH. induction Hb as [|q t l ts K Hb IHf]; constructor; [|apply IHf; intros; apply Y; right; auto].
        destruct (is_with (snd q)); [discriminate|]. inv_bind K. ok K. apply Y in Hb0; [|left; auto].
        change (Text (fst q) :: Key "as" :: pieces (snd q)) with ([Text (fst q)] ++ [Key "as"] ++ pieces (snd q)). apply M_app; [key|].
        apply M_app; [apply (M_lit ["as"]); reflexivity|]. apply M_pre; auto. apply M_post; auto. }
      clear - K. induction K as [|q t l ts H K IH]; [apply M_none|]. cbn [flat_map].
      destruct ts as [|t2 ts]; [inversion K; subst; cbn [join flat_map]; rewrite app_nil_r; auto|].
      change (join ("," ++ nl) (t :: t2 :: ts)) with (t ++ ("," ++ nl) ++ join ("," ++ nl) (t2 :: ts)). apply (M_app _ _ _ _ H). apply M_pre; auto.
    + apply M_pre; auto. eapply IH; [|eauto]. rewrite in_app_iff. right. left. auto.
  - (* OrderItem *) rewrite render_NOrderItem in H. inv_bind H. inv_bind Hb. ok Hb. ok H. apply M_finish. apply M_app; [eapply IH; [left; reflexivity|eauto]|].
    destruct asc; [apply M_left; apply (M_lit ["asc"]); reflexivity|]. destruct desc; [apply (M_lit ["desc"]); reflexivity|apply M_none].
  - (* Fun *) rewrite render_NFun in H. inv_bind H. inv_bind Hb. ok Hb. ok H. apply M_finish. apply says_list in Hb0; auto. apply M_call; auto.
  - (* Cast *) rewrite render_NCast in H. inv_bind H. inv_bind Hb. ok Hb. ok H. apply M_finish.
    change (M ([Key "cast"] ++ pieces n ++ [Key "as"] ++ [Text ty]) ("CAST(" ++ a0 ++ " AS " ++ upper ty ++ ")")).
    apply M_app; [apply (M_lit ["cast"]); reflexivity|]. apply M_app; [eapply IH; [left; reflexivity|eauto]|]. apply M_app; [apply (M_lit ["as"]); reflexivity|].
    apply M_post; auto. key.
  - (* Count *) rewrite render_NCount in H. inv_bind H. inv_bind Hb. ok Hb. ok H. apply M_finish. apply says_list in Hb0; auto.
    change (M ([Key "count"] ++ (if distinct then [Key "distinct"] else []) ++ flat_map pieces args) ("COUNT(" ++ (if distinct then "DISTINCT " else "") ++ join ", " a0 ++ ")")).
    apply M_app; [apply (M_lit ["count"]); reflexivity|]. apply M_app; [destruct distinct; [apply (M_lit ["distinct"])|apply (M_lit [])]; reflexivity|].
    apply M_post; auto. apply M_join; auto.
  - (* ArrayAgg *) rewrite render_NArrayAgg in H. inv_bind H. inv_bind Hb. inv_bind Hb. ok Hb. ok H. apply M_finish.
    match goal with |- M (?k :: ?r) (?s ++ ?t) => change (M ([k] ++ r) (s ++ t)) end. apply M_app; [apply (M_lit ["array_agg"]); reflexivity|].
    apply M_app; [destruct distinct; [apply (M_lit ["distinct"])|apply (M_lit [])]; reflexivity|].
    apply M_app; [eapply IH; [left; reflexivity|eauto]|]. rewrite app_assoc.
    apply M_app; [destruct ignore_nulls; [apply M_left; apply (M_lit ["ignore"; "nulls"]); reflexivity|destruct respect_nulls; [apply (M_lit ["respect"; "nulls"]); reflexivity|apply M_none]]|].
    apply M_app.
    + destruct order as [x|]; [|ok Hb1; apply M_none]. inv_bind Hb1. inv_bind Hb1. ok Hb1.
      change (Key "order" :: Key "by" :: flat_map pieces x) with ([Key "order"; Key "by"] ++ flat_map pieces x).
      apply M_app; [apply (M_lit ["order"; "by"]); reflexivity|]. apply says_list in Hb; [|intros c I; apply IH; right; exact I]. eapply M_order; eauto.
    + apply M_post; auto. destruct limit as [z|]; [|apply M_none]. destruct (Z.eqb z 0); [apply M_none|].
      change [Key "limit"; Whole z] with ([Key "limit"] ++ [Whole z]). apply M_app; [apply (M_lit ["limit"]); reflexivity|key].
  - (* Filtered *) rewrite render_NFiltered in H. inv_bind H. inv_bind Hb. inv_bind Hb. ok Hb. ok H. apply M_finish.
    apply M_app; [eapply IH; [left; reflexivity|eauto]|]. change (Key "filter" :: Key "where" :: pieces n2) with ([Key "filter"; Key "where"] ++ pieces n2).
    apply M_app; [apply (M_lit ["filter"; "where"]); reflexivity|]. apply M_post; auto. eapply IH; [right; left; reflexivity|eauto].
  - (* Analytics *) rewrite render_NAnalytics in H. inv_bind H. inv_bind Hb. inv_bind Hb. inv_bind Hb. ok Hb. ok H. apply M_finish.
    assert (S1 : M (pieces n ++ Key "over" :: match partition with Some l => Key "partition" :: Key "by" :: flat_map pieces l | None => [] end
      ++ match order with Some l => Key "order" :: Key "by" :: flat_map pieces l | None => [] end) (a0 ++ " OVER (" ++ a1 ++ a2)).
    { apply M_app; [eapply IH; [left; reflexivity|eauto]|].
      match goal with |- M (?k :: ?r) (?s ++ ?t) => change (M ([k] ++ r) (s ++ t)) end. apply M_app; [apply (M_lit ["over"]); reflexivity|]. apply M_app.
      - destruct partition as [[|x l]|]; [ok Hb1; apply M_none| |ok Hb1; apply M_none]. inv_bind Hb1. ok Hb1.
        apply says_list in Hb; [|intros c I; apply IH; right; rewrite in_app_iff; left; exact I].
        change (Key "partition" :: Key "by" :: flat_map pieces (x :: l)) with ([Key "partition"; Key "by"] ++ flat_map pieces (x :: l)). rewrite app_assoc.
        apply M_app; [apply (M_lit ["partition"; "by"]); reflexivity|].
        assert (X : M (flat_map pieces (x :: l)) (nl ++ "  " ++ join ("," ++ nl ++ "  ") a)) by (apply M_pre; auto; apply M_pre; auto; apply M_join; auto).
        destruct a as [|y [|z a]]; [exact X| |exact X]. inversion Hb as [|? ? ? ? H1 H2]; subst. inversion H2; subst. cbn [flat_map]. rewrite app_nil_r. apply M_pre; auto.
      - destruct order as [x|]; [|ok Hb2; apply M_none]. inv_bind Hb2. inv_bind Hb2. ok Hb2.
        change (Key "order" :: Key "by" :: flat_map pieces x) with ([Key "order"; Key "by"] ++ flat_map pieces x). rewrite app_assoc.
        apply M_app; [apply (M_lit ["order"; "by"]); reflexivity|]. apply says_list in Hb; [|intros c I; apply IH; right; rewrite in_app_iff; right; exact I].
        apply M_indent. eapply M_order; eauto. }
    apply M_post_if.
    match goal with |- M (?x ++ ?k :: ?p ++ ?o ++ ?f) _ => replace (x ++ k :: p ++ o ++ f) with ((x ++ k :: p ++ o) ++ f) by (rewrite <- !app_assoc; cbn [app]; rewrite <- !app_assoc; reflexivity) end.
    destruct frame as [[rr fr]|]; [|rewrite app_nil_r; exact S1].
    apply M_app; [exact S1|]. change [Text rr; Key fr] with ([Text rr] ++ [Key fr]). apply M_pre; [destruct (has_nl _); reflexivity|].
    apply M_app; [key|]. apply M_pre; auto. key.
  - (* Column *) rewrite render_NColumn in H. inv_bind H. ok Hb. ok H. apply M_finish. unfold column_text. destruct (mem v COLUMN_KEYWORDS); key.
  - (* Chained *) rewrite render_NChained in H. inv_bind H. inv_bind Hb. inv_bind Hb. ok Hb. ok H. apply M_finish.
    change (Text "." :: pieces n2) with ([Text "."] ++ pieces n2). apply M_app; [eapply IH; [left; reflexivity|eauto]|]. apply M_app; [key|].
    eapply IH; [right; left; reflexivity|eauto].
  - (* Type *) rewrite render_NType in H. inv_bind H. ok Hb. ok H. apply M_finish. key.
  - (* DatePart *) rewrite render_NDatePart in H. inv_bind H. inv_bind Hb. ok Hb. ok H. apply M_finish.
    change (Text part :: Key "from" :: pieces n) with ([Text part] ++ [Key "from"] ++ pieces n). apply M_app; [key|]. apply M_app; [apply (M_lit ["from"]); reflexivity|].
    eapply IH; [left; reflexivity|eauto].
  - (* String *) rewrite render_NString in H. inv_bind H. ok Hb. ok H. apply M_finish. apply M_app; [destruct prefix; [key|apply M_none]|].
    match goal with |- M (?k :: ?r) (?s ++ ?t) => change (M ([k] ++ r) (s ++ t)) end. apply M_app; [key|]. apply M_app; [destruct v; [apply M_none|key]|key].
  - rewrite render_NInt in H. inv_bind H. ok Hb. ok H. apply M_finish. key.
  - rewrite render_NFloat in H. inv_bind H. ok Hb. ok H. apply M_finish. key.
  - rewrite render_NNull in H. inv_bind H. ok Hb. ok H. apply M_finish. key.
  - rewrite render_NBool in H. inv_bind H. ok Hb. ok H. apply M_finish. key.
  - (* Paren *) rewrite render_NParen in H.
    assert (F : forall full, (l <- rmap (fun a => t <- render Sub a ;; Ok (if is_select a then nl ++ t ++ nl else t)) args ;; Ok ("(" ++ join ", " l ++ ")")) = Ok full -> M (flat_map pieces args) full).
    { intros full E. inv_bind E. ok E. apply M_pre; auto. apply M_post; auto. apply M_join; auto. apply rmap_Ok in Hb. clear H.
      induction Hb as [|x y l l' K Hb IHf]; constructor; [|apply IHf; intros; apply IH; right; auto].
      inv_bind K. ok K. apply IH in Hb0; [|left; auto]. destruct (is_select x); auto. apply M_pre; auto. apply M_post; auto. }
    assert (A : forall a r m t, args = a :: r -> render m a = Ok t -> M (flat_map pieces args) t).
    { intros a r m' t' -> E. cbn [flat_map]. apply M_left. eapply IH; [left; reflexivity|eauto]. }
    destruct m; auto.
    + destruct args as [|x r]; [discriminate|]. inv_bind H. ok H. eapply A in Hb; [|reflexivity].
      destruct (has_nl a); [repeat (apply M_pre; [reflexivity|]); apply M_post; auto; apply M_indent; auto|apply M_pre; auto; apply M_post; auto].
    + inv_bind H. apply F in Hb. destruct (has_nl a) eqn:HN; [|ok H; apply M_clause_paren; auto; congruence].
      destruct args as [|x r]; [discriminate|]. inv_bind H. ok H. eapply A in Hb0; [|reflexivity]. apply M_clause_paren; auto.
    + inv_bind H. apply F in Hb. destruct (has_nl a) eqn:HN; [|ok H; apply M_when_paren; auto; congruence].
      destruct args as [|x r]; [discriminate|]. inv_bind H. ok H. eapply A in Hb0; [|reflexivity]. apply M_when_paren; auto.
    + destruct args as [|x r]; [discriminate|]. inv_bind H. ok H. eapply A in Hb; [|reflexivity]. apply M_pre; auto. apply M_pre; auto. apply M_post; auto.
      destruct (is_select x); auto. apply M_pre; auto. apply M_indent; auto.
    + destruct args as [|x r]; [discriminate|]. inv_bind H. ok H. eapply A in Hb; [|reflexivity]. apply M_pre; auto. apply M_pre; auto. apply M_post; auto.
      destruct (is_select x); auto. apply M_pre; auto. apply M_indent; auto.
    + destruct args as [|x r]; [discriminate|]. eapply A; eauto.
    + destruct args as [|x r]; [discriminate|]. eapply A; eauto.
  - (* Array *) rewrite render_NArray in H. inv_bind H. inv_bind Hb. ok Hb. ok H. apply M_finish. apply says_list in Hb0; auto. apply M_pre; auto. apply M_post; auto. apply M_join; auto.
  - (* Alias *) rewrite render_NAlias in H.
    assert (W : M (if with_as then [Key "as"] else []) (if with_as then " AS " else " ")) by (destruct with_as; [apply (M_lit ["as"])|apply (M_lit [])]; reflexivity).
    assert (B : forall m' z, match alias with inl s => Ok s | inr x => render m' x end = Ok z -> M match alias with inl t => [Text t] | inr x => pieces x end z).
    { intros m' z E. destruct alias as [s|x]; [ok E; key|]. eapply IH; [right; left; reflexivity|eauto]. }
    assert (A : forall m' z, render m' n = Ok z -> M (pieces n) z) by (intros; eapply IH; [left; reflexivity|eauto]).
    destruct m; try discriminate; inv_bind H; inv_bind H; ok H; try apply M_finish; try (repeat (apply M_app; eauto); fail).
    apply M_app; eauto. rewrite app_assoc. apply M_app; eauto. destruct with_as; [apply (M_lit ["as"])|apply (M_lit [])]; reflexivity.
  - (* Index *) rewrite render_NIndex in H. inv_bind H. inv_bind Hb. inv_bind Hb. ok Hb. ok H. apply M_finish. apply says_list in Hb1; [|intros; apply IH; right; auto].
    apply M_app; [eapply IH; [left; reflexivity|eauto]|]. apply M_pre; auto. apply M_post; auto. apply M_join; auto.
  - (* Arith *) rewrite render_NArith in H. inv_bind H. inv_bind Hb. inv_bind Hb. ok Hb. ok H. apply M_finish.
    change (Text op :: pieces n2) with ([Text op] ++ pieces n2). apply M_app; [eapply IH; [left; reflexivity|eauto]|]. apply M_pre; auto. apply M_app; [key|].
    apply M_pre; auto. eapply IH; [right; left; reflexivity|eauto].
  - (* Bitwise *) rewrite render_NBitwise in H. inv_bind H. inv_bind Hb. inv_bind Hb. ok Hb. ok H. apply M_finish.
    change (Text op :: pieces n2) with ([Text op] ++ pieces n2). apply M_app; [eapply IH; [left; reflexivity|eauto]|]. apply M_pre; auto. apply M_app; [key|].
    apply M_pre; auto. eapply IH; [right; left; reflexivity|eauto].
  - (* Table *) rewrite render_NTable in H. inv_bind H. inv_bind Hb. ok Hb. ok H. apply M_finish. assert (X : M (pieces n) a0) by (eapply IH; [left; reflexivity|eauto]).
    destruct brackets; auto. apply M_pre; auto. apply M_post; auto.
  - (* Unnest *) rewrite render_NUnnest in H. inv_bind H. inv_bind Hb. ok Hb. ok H. apply M_finish. assert (X : M (pieces n) a0) by (eapply IH; [left; reflexivity|eauto]).
    destruct with_offset; [|apply M_left; auto]. apply M_app; auto. apply M_app; [apply (M_lit ["with"; "offset"]); reflexivity|].
    destruct alias as [[|c al]|]; try apply M_none. apply M_app; [destruct with_offset_as; [apply (M_lit ["as"])|apply (M_lit [])]; reflexivity|].
    change (" " ++ c :: al) with (" " ++ (c :: al)). apply M_pre; auto. key.
  - (* Join *) rewrite render_NJoin in H. inv_bind H. inv_bind Hb. inv_bind Hb. inv_bind Hb. ok Hb. ok H. apply M_finish.
    apply M_app; [eapply IH; [left; reflexivity|eauto]|]. match goal with |- M (?k :: ?r) (?s ++ ?t) => change (M ([k] ++ r) (s ++ t)) end.
    apply M_app; [destruct (str_eqb ty ",") eqn:TY; [apply str_eqb_eq in TY; subst; apply M_fill_any; reflexivity|apply M_pre; [reflexivity|key]]|].
    apply M_pre; auto. apply M_app; [eapply IH; [right; left; reflexivity|eauto]|].
    destruct on_ as [x|].
    + inv_bind Hb2. ok Hb2. apply M_left. change (Key "on" :: pieces x) with ([Key "on"] ++ pieces x). rewrite app_assoc. apply M_app; [apply (M_lit ["on"]); reflexivity|].
      eapply IH; [|eauto]. right. right. left. auto.
    + destruct using_ as [x|]; [|ok Hb2; apply M_none]. inv_bind Hb2. ok Hb2. apply (M_right []). change (Key "using" :: pieces x) with ([Key "using"] ++ pieces x). rewrite app_assoc. apply M_app; [apply (M_lit ["using"]); reflexivity|].
      eapply IH; [|eauto]. right. right. left. auto.
  - (* Combined *) rewrite render_NCombined in H. inv_bind H. inv_bind Hb. inv_bind Hb. ok Hb. ok H. apply M_finish.
    change (Key op :: pieces n2) with ([Key op] ++ pieces n2). apply M_app; [eapply IH; [left; reflexivity|eauto]|]. apply M_pre; auto. apply M_app; [key|].
    apply M_pre; [destruct (is_table n2); auto|]. eapply IH; [right; left; reflexivity|eauto].
  - (* Cond *) rewrite render_NCond in H. inv_bind H. inv_bind Hb. inv_bind Hb. ok Hb. ok H. apply M_finish.
    change (Key pred :: pieces n2) with ([Key pred] ++ pieces n2). apply M_app; [eapply IH; [left; reflexivity|eauto]|]. apply M_pre; auto. apply M_app; [key|].
    apply M_pre; auto. eapply IH; [right; left; reflexivity|eauto].
  - (* BoolC *) rewrite render_NBoolC in H. assert (NS : m <> Str) by (intros ->; discriminate).
    assert (X : forall x y : R str, match m with Str => x | _ => y end = y) by (intros; destruct m; congruence). rewrite X in H. clear X.
    inv_bind H. inv_bind H. inv_bind H. ok H. apply M_finish. change (Key ty :: pieces n2) with ([Key ty] ++ pieces n2).
    match type of Hb1 with (if ?c then _ else _) = _ => destruct c end.
    + ok Hb1. apply M_app; [eapply IH; [left; reflexivity|eauto]|]. apply M_pre; auto. apply M_app; [key|].
      apply M_pre; auto. eapply IH; [right; left; reflexivity|eauto].
    + inv_bind Hb1. inv_bind Hb1. ok Hb1. apply M_app; [eapply IH; [left; reflexivity|eauto]|]. apply M_pre; auto. apply M_app; [key|].
      apply M_pre; auto. eapply IH; [right; left; reflexivity|eauto].
  - (* Neg *) rewrite render_NNeg in H. inv_bind H. inv_bind Hb. ok Hb. ok H. apply M_finish. change (Key "not" :: pieces n) with ([Key "not"] ++ pieces n).
    apply M_app; [key|]. apply M_pre; [destruct (is_paren n); auto|]. eapply IH; [left; reflexivity|eauto].
  - (* Except *) rewrite render_NExcept in H. inv_bind H. inv_bind Hb. inv_bind Hb. ok H. apply M_finish. apply says_list in Hb1; [|intros; apply IH; right; auto].
    eapply (M_all _ "except"); [|exact Hb1|exact Hb]. eapply IH; [left; reflexivity|eauto].
  - (* Replace *) rewrite render_NReplace in H. inv_bind H. inv_bind Hb. inv_bind Hb. ok H. apply M_finish. apply says_list in Hb1; [|intros; apply IH; right; auto].
    eapply (M_all _ "replace"); [|exact Hb1|exact Hb]. eapply IH; [left; reflexivity|eauto].
  - (* Case *) rewrite render_NCase in H. inv_bind H. inv_bind Hb. inv_bind Hb. inv_bind Hb. ok Hb. ok H. apply M_finish.
    match goal with |- M (?k :: ?r) (?s ++ ?t) => change (M ([k] ++ r) (s ++ t)) end. apply M_app; [key|].
    apply M_app; [destruct e as [x|]; [inv_bind Hb0; ok Hb0; apply M_pre; auto; eapply IH; [left; reflexivity|eauto]|ok Hb0; apply M_none]|].
    apply M_pre; auto. apply M_pre; auto. apply M_app.
    + assert (Y1 : forall w, In w whens -> says (fst w)) by (intros w I; apply IH; rewrite !in_app_iff; right; left; apply in_map; auto).
      assert (Y2 : forall w, In w whens -> says (snd w)) by (intros w I; apply IH; rewrite !in_app_iff; right; right; left; apply in_map; auto).
      apply rmap_Ok in Hb1. clear - Hb1 Y1 Y2. 
      assert (K : Forall2 (fun (w : node * node) t => M (Key "when" :: pieces (fst w) ++ Key "then" :: pieces (snd w)) t) whens a1).
      { induction Hb1 as [|w t l ts K Hb IHf]; constructor; [|apply IHf; intros; [apply Y1|apply Y2]; right; auto].
        inv_bind K. inv_bind K. ok K.
        change (M ([Key "when"] ++ pieces (fst w) ++ [Key "then"] ++ pieces (snd w)) ("WHEN" ++ a ++ "THEN " ++ a0)). apply M_app; [key|].
        apply M_app; [eapply Y1; [left; reflexivity|eauto]|]. apply M_app; [apply (M_lit ["then"]); reflexivity|]. eapply Y2; [left; reflexivity|eauto]. }
      clear - K. induction K as [|q t l ts H K IH]; [apply M_none|]. cbn [flat_map].
      destruct ts as [|t2 ts]; [inversion K; subst; cbn [join flat_map]; rewrite app_nil_r; auto|].
      change (join (nl ++ " ") (t :: t2 :: ts)) with (t ++ (nl ++ " ") ++ join (nl ++ " ") (t2 :: ts)). apply (M_app _ _ _ _ H). apply M_pre; auto.
    + apply M_app; [destruct els as [x|]; [inv_bind Hb2; ok Hb2|ok Hb2; apply M_none]|apply (M_lit ["end"]); reflexivity].
      change (Key "else" :: pieces x) with ([Key "else"] ++ pieces x). rewrite app_assoc. apply M_app; [apply (M_lit ["else"]); reflexivity|].
      eapply IH; [|eauto]. rewrite !in_app_iff. right. right. right. left. auto.
Qed.

Lemma formatted : forall sql t, format_sql sql = Ok t -> contains REPR t = false ->
  exists l, taken l (fst (to_tokens sql)) /\ spelled l (bare t).
Proof.
  intros sql t H R. unfold format_sql in H. inv_bind H. unfold parse_sql in Hb. destruct (to_tokens sql) as [ts eos]. cbn [fst].
  apply parse_taken in Hb. apply says_all in H as [H|(l & S & H)]; [congruence|]. exists l. split; auto. eapply sub_taken; eauto.
Qed.
Lemma taken_times : forall s l ts, taken l ts -> times s l <= length (filter (fun t => str_eqb t s) ts).
Proof.
  intros s l ts H. unfold times. induction H as [ts|t l ts H IH|p a l ts W H IH]; cbn [filter].
  - cbn. lia.
  - destruct (str_eqb t s); cbn [length]; lia.
  - rewrite filter_app, app_length. destruct p; cbn [filter]; try lia. inversion W; subst. cbn [filter]. destruct (str_eqb s0 s); cbn [length]; lia.
Qed.

(** where a character of the text comes from *)
Lemma spelled_char : forall l s, spelled l s -> forall c, In c s -> In c SIGNS \/ exists p a, In p l /\ shown p a /\ In c a.
Proof.
  intros l s H. induction H; intros x I; [destruct I| |].
  - destruct I as [<-|I]; auto.
  - apply in_app_or in I as [I|I].
    + right. exists p, a. repeat split; auto; [left; auto|]. unfold bare in I. apply filter_In in I as [I _]. auto.
    + apply IHspelled in I as [I|(q & b & I1 & I2 & I3)]; auto. right. exists q, b. repeat split; auto. right. auto.
Qed.
Lemma taken_piece : forall l ts, taken l ts -> forall p, In p l -> exists a, written p a /\ incl a ts.
Proof.
  intros l ts H. induction H; intros q I; [destruct I| |].
  - apply IHtaken in I as (a & W & J). exists a. split; auto. intros x X. right. auto.
  - destruct I as [<-|I]; [exists a; split; auto; apply incl_appl, incl_refl|]. apply IHtaken in I as (b & W & J). exists b. split; auto. apply incl_appr. auto.
Qed.

(** The query of [C54_repr_refuted]: nothing in it can be shown as text with a < in it *)
Lemma no_less : forall l ts, taken l ts ->
  (forall t, In t ts -> ~ In 60%N t /\ isdigit t = false /\ (forall z, py_int t <> Ok z) /\ isdigit (replace_c 46 [] t) = false) ->
  forall s, spelled l s -> ~ In 60%N s.
Proof.
  intros l ts T K s S I. apply (spelled_char _ _ S) in I as [I|(p & a & I1 & I2 & I3)].
  { vm_compute in I. repeat destruct I as [I|I]; try discriminate. auto. }
  apply (taken_piece _ _ T) in I1 as (x & W & J).
  assert (U : forall y, In 60%N (upper y) -> In 60%N (lower y)).
  { intros y Y. unfold upper in Y. apply in_map_iff in Y as (c & E & Y). apply in_map_iff. exists c. split; auto.
    unfold upper_c, lower_c in *. destruct (is_lower_c c) eqn:L; [unfold is_lower_c in L; apply andb_prop in L as [L1 L2]; apply N.leb_le in L1, L2; lia|]. subst. reflexivity. }
  assert (D : forall y, In 60%N (lower y) -> In 60%N y).
  { intros y Y. unfold lower in Y. apply in_map_iff in Y as (c & E & Y). unfold lower_c in E. destruct (is_upper_c c) eqn:L; [unfold is_upper_c in L; apply andb_prop in L as [L1 L2]; apply N.leb_le in L1, L2; lia|]. subst. auto. }
  destruct W; inversion I2; subst.
  - apply (K a); auto. apply J. left. auto.
  - apply (K s0); [apply J; left; auto|]. apply D, U. auto.
  - apply U in I3. rewrite <- H in I3. apply D in I3. clear - I3 J K. revert J I3. induction a0 as [|y r IH]; intros J I3; [destruct I3|].
    destruct r as [|z r]; [apply (K y); [apply J; left; auto|exact I3]|]. change (join " " (y :: z :: r)) with (y ++ " " ++ join " " (z :: r)) in I3.
    apply in_app_or in I3 as [I3|I3]; [apply (K y); [apply J; left; auto|exact I3]|]. apply in_app_or in I3 as [[I3|[]]|I3]; [discriminate|].
    apply IH; auto. intros w W. apply J. right. auto.
  - destruct (K t) as (_ & X & _); [apply J; left; auto|]. congruence.
  - destruct (K t) as (_ & X & _); [apply J; right; left; auto|]. congruence.
  - destruct (K t) as (_ & _ & X & _); [apply J; left; auto|]. eapply X; eauto.
  - destruct (K t) as (_ & _ & _ & X); [apply J; left; auto|]. congruence.
  - destruct (K t) as (_ & _ & _ & X); [apply J; right; left; auto|]. congruence.
  - vm_compute in I3. repeat destruct I3 as [I3|I3]; try discriminate. auto.
  - vm_compute in I3. repeat destruct I3 as [I3|I3]; try discriminate. auto.
  - vm_compute in I3. repeat destruct I3 as [I3|I3]; try discriminate. auto.
  - apply mem_In in H. vm_compute in H. destruct H as [<-|[<-|[<-|[]]]]; destruct I3 as [I3|[]]; discriminate.
Qed.
Definition plain_word (t : str) : bool :=
  negb (has 60%N t) && negb (isdigit t) && match py_int t with Ok _ => false | Err _ => true end
  && negb (isdigit (replace_c 46 [] t)).
Lemma plain_word_spec : forall t, plain_word t = true ->
  ~ In 60%N t /\ isdigit t = false /\ (forall z, py_int t <> Ok z) /\ isdigit (replace_c 46 [] t) = false.
Proof.
  intros t H. unfold plain_word in H. apply andb_true_iff in H as [H H4]. apply andb_true_iff in H as [H H3]. apply andb_true_iff in H as [H1 H2].
  apply negb_true_iff in H1. apply negb_true_iff in H2. repeat split.
  - intros I. apply has_In in I. congruence.
  - exact H2.
  - intros z E. rewrite E in H3. discriminate.
  - apply negb_true_iff in H4. exact H4.
Qed.
Lemma repr_witness : exists sql t, format_sql sql = Ok t /\ forall l, taken l (fst (to_tokens sql)) -> ~ spelled l (bare t).
Proof.
  exists "select a order by select b", (match format_sql "select a order by select b" with Ok t => t | Err _ => [] end).
  split; [vm_compute; reflexivity|]. intros l T S.
  assert (E : fst (to_tokens "select a order by select b") = ["select"; "a"; "order"; "by"; "select"; "b"]) by (vm_compute; reflexivity). rewrite E in T.
  assert (K : forallb plain_word ["select"; "a"; "order"; "by"; "select"; "b"] = true) by (vm_compute; reflexivity). rewrite forallb_forall in K.
  assert (L : has 60%N (bare (match format_sql "select a order by select b" with Ok t => t | Err _ => [] end)) = true) by (vm_compute; reflexivity).
  apply has_In in L. revert L. generalize dependent (bare (match format_sql "select a order by select b" with Ok t => t | Err _ => [] end)). intros s S L.
  exact (no_less _ _ T (fun t I => plain_word_spec t (K t I)) _ S L).
Qed.
