(** C163: the texts of requests and responses. *)
From Coq Require Import List Arith NArith Lia Bool.
From Verif Require Import Bytes Text Utf8 Utf8Spec AssetRouter HttpBuild JsonText Messages Props_Messages CanisterMessages Props_CanisterMessages HttpText.
Import ListNotations.
Local Open Scope N_scope.

(** ** Specification *)
(** The strings of a value are UTF-8, and the name of a method has no closing parenthesis (http::Method: token characters only). *)
Definition text_headers (l : list (bytes * bytes)) : Prop := Forall (fun h => text (fst h) /\ text (snd h)) l.
Definition method_name (m : bytes) : Prop := ~ In ")"%byte m.
(** What the text of a body says: whether it has more than a hundred bytes, and the first hundred. *)
Definition same_glimpse (b b' : bytes) : Prop := firstn 100 b = firstn 100 b' /\ (100 < List.length b <-> 100 < List.length b')%nat.
(** The printable characters of ASCII are shown as they are. *)
Definition shows_ascii (plain : N -> bool) : Prop := forall c, 32 <= c -> c < 127 -> plain c = true.

(** ** Parts *)
Lemma header_prefix_free plain h h' r r' : text (fst h) /\ text (snd h) -> text (fst h') /\ text (snd h') ->
  debug_header plain h ++ r = debug_header plain h' ++ r' -> h = h' /\ r = r'.
Proof.
  destruct h as [a b], h' as [a' b']. unfold debug_header. cbn [fst snd]. intros [Ta Tb] [Ta' Tb'] E. rewrite <- !app_assoc in E. apply app_inv_head in E.
  apply (str_prefix_free plain) in E; [|exact Ta|exact Ta']. destruct E as [-> E]. apply app_inv_head in E.
  apply (str_prefix_free plain) in E; [|exact Tb|exact Tb']. destruct E as [-> E]. apply app_inv_head in E. auto.
Qed.
Lemma headers_prefix_free plain l l' r r' : text_headers l -> text_headers l' -> debug_headers plain l ++ r = debug_headers plain l' ++ r' -> l = l' /\ r = r'.
Proof.
  unfold debug_headers, debug_vec. intros F F' E. rewrite <- !app_assoc in E. apply app_inv_head in E. revert l' F F' E.
  induction l as [|a l IH]; intros [|a' l'] F F' E.
  - cbn in E. injection E as ->. auto.
  - exfalso. destruct l'; cbn [map join] in E; unfold debug_header in E; rewrite <- ?app_assoc in E; cbn in E; discriminate E.
  - exfalso. destruct l; cbn [map join] in E; unfold debug_header in E; rewrite <- ?app_assoc in E; cbn in E; discriminate E.
  - destruct l as [|b l], l' as [|b' l']; cbn [map join] in E; rewrite <- ?app_assoc in E;
      (apply (header_prefix_free plain) in E; [|exact (Forall_inv F)|exact (Forall_inv F')]); destruct E as [-> E].
    + cbn in E. injection E as ->. auto.
    + cbn in E. discriminate E.
    + cbn in E. discriminate E.
    + apply app_inv_head in E. destruct (IH (b' :: l') (Forall_inv_tail F) (Forall_inv_tail F') E) as [-> ->]. auto.
Qed.
Lemma status_prefix_free n m r r' : debug_status n ++ r = debug_status m ++ r' -> n = m /\ r = r'.
Proof. unfold debug_status. intro E. rewrite <- !app_assoc in E. apply app_inv_head in E. change (bs ")") with [")"%byte] in E. apply dec_prefix_free in E; [exact E|reflexivity]. Qed.
Lemma method_prefix_free m : forall m' r r', method_name m -> method_name m' -> debug_method m ++ r = debug_method m' ++ r' -> m = m' /\ r = r'.
Proof.
  unfold debug_method, method_name. intros m' r r' M M' E. rewrite <- !app_assoc in E. apply app_inv_head in E. change (bs ")") with [")"%byte] in E. cbn [app] in E. revert m' M M' E.
  induction m as [|x m IH]; intros [|y m'] M M' E; cbn [app] in E.
  - injection E as ->. auto.
  - exfalso. injection E as <- _. apply M'. left. reflexivity.
  - exfalso. injection E as -> _. apply M. left. reflexivity.
  - injection E as -> E. destruct (IH m') as [-> ->]; auto.
    + intro I. apply M. right. exact I.
    + intro I. apply M'. right. exact I.
Qed.
Lemma upgrade_inj o o' r r' : debug_option debug_bool o ++ r = debug_option debug_bool o' ++ r' -> o = o' /\ r = r'.
Proof. destruct o as [[]|], o' as [[]|]; cbn; intro E; try discriminate E; split; try reflexivity; injection E as E; exact E. Qed.
Lemma version_inj o o' r r' : debug_option dec o ++ r = debug_option dec o' ++ r' -> o = o' /\ r = r'.
Proof.
  destruct o as [n|], o' as [m|]; unfold debug_option; intro E.
  - rewrite <- !app_assoc in E. apply app_inv_head in E. change (bs ")") with [")"%byte] in E. apply dec_prefix_free in E; [|reflexivity]. destruct E as [-> ->]. auto.
  - cbn in E. discriminate E.
  - cbn in E. discriminate E.
  - apply app_inv_head in E. auto.
Qed.

(** ** The text of a body *)
(** what is shown as it is: printable ASCII other than the quote and the backslash *)
Definition clear (b : byte) : Prop := 32 <= b2n b /\ b2n b < 127 /\ b2n b <> 34 /\ b2n b <> 92.
Definition clear_b (b : byte) : bool := (32 <=? b2n b) && (b2n b <? 127) && negb (b2n b =? 34) && negb (b2n b =? 92).
Lemma clear_ok l : forallb clear_b l = true -> Forall clear l.
Proof.
  rewrite forallb_forall, Forall_forall. intros F x I. specialize (F x I). unfold clear_b in F. repeat (apply andb_true_iff in F; destruct F as [F ?]).
  apply N.leb_le in F. apply N.ltb_lt in H1. apply negb_true_iff in H, H0. apply N.eqb_neq in H, H0. repeat split; assumption.
Qed.
Lemma dec_clear n : Forall clear (dec n).
Proof. eapply Forall_impl; [|apply dec_digits]. cbv beta. intros b [A B]. unfold clear. lia. Qed.
Lemma vec_clear l : Forall (Forall clear) l -> Forall clear (debug_vec l).
Proof.
  intro F. unfold debug_vec. apply Forall_app. split; [apply clear_ok; reflexivity|]. apply Forall_app. split; [|apply clear_ok; reflexivity].
  induction F as [|x l X F IH]; [constructor|]. destruct l as [|y l]; [exact X|]. change (join (bs ", ") (x :: y :: l)) with (x ++ bs ", " ++ join (bs ", ") (y :: l)).
  apply Forall_app. split; [exact X|]. apply Forall_app. split; [apply clear_ok; reflexivity|exact IH].
Qed.
Lemma bytes_clear b : Forall clear (debug_bytes b).
Proof. unfold debug_bytes. apply vec_clear. apply Forall_map. apply Forall_forall. intros x _. apply dec_clear. Qed.
Lemma body_clear b : Forall clear (formatted_body b).
Proof. unfold formatted_body. destruct (_ <? _); [|apply bytes_clear]. apply Forall_app. split; [apply bytes_clear|apply clear_ok; reflexivity]. Qed.
Lemma clear_ascii s : Forall clear s -> is_ascii s = true.
Proof. intro F. unfold is_ascii. apply forallb_forall. rewrite Forall_forall in F. intros x I. destruct (F x I) as (_ & L & _). apply N.ltb_lt. lia. Qed.
Lemma body_text b : text (formatted_body b).
Proof. apply ascii_utf8, clear_ascii, body_clear. Qed.
Lemma utf8_of_ascii b : b2n b < 128 -> utf8_of (b2n b) = [b].
Proof. destruct b; intro L; first [reflexivity|exfalso; vm_compute in L; discriminate L]. Qed.
Lemma clear_shown plain s : shows_ascii plain -> Forall clear s -> debug_str plain s = bs """" ++ s ++ bs """".
Proof.
  intros P F. unfold debug_str, chars. rewrite ascii_decode by exact (clear_ascii s F). change quote with (bs """"). f_equal. f_equal.
  induction F as [|x s (A & B & C & D) F IH]; [reflexivity|]. cbn [map flat_map]. rewrite IH. unfold debug_char.
  rewrite !(proj2 (N.eqb_neq _ _)) by lia. rewrite P by lia. rewrite utf8_of_ascii by lia. reflexivity.
Qed.
Lemma dec_short b : (List.length (dec (b2n b)) <= 3)%nat.
Proof. destruct b; apply Nat.leb_le; vm_compute; reflexivity. Qed.
Lemma bytes_short l : (List.length (debug_bytes l) <= 5 * List.length l + 2)%nat.
Proof.
  unfold debug_bytes, debug_vec. rewrite !app_length. change (List.length (bs "[")) with 1%nat. change (List.length (bs "]")) with 1%nat.
  assert (J : (List.length (join (bs ", ") (map (fun b => dec (b2n b)) l)) <= 5 * List.length l)%nat).
  { induction l as [|x l IH]; [apply Nat.le_refl|]. assert (D := dec_short x). destruct l as [|y l]; [cbn [map join List.length] in *; lia|].
    cbn [map] in *. set (f := fun b => dec (b2n b)) in *. change (join (bs ", ") (dec (b2n x) :: dec (b2n y) :: map f l)) with (dec (b2n x) ++ bs ", " ++ join (bs ", ") (dec (b2n y) :: map f l)).
    rewrite !app_length. change (List.length (bs ", ")) with 2%nat. cbn [List.length] in *. lia. }
  lia.
Qed.
Lemma firstn_all_short {A} (l : list A) n : (List.length l <= n)%nat -> firstn n l = l.
Proof. apply firstn_all2. Qed.
Lemma body_glimpse b b' : formatted_body b = formatted_body b' <-> same_glimpse b b'.
Proof.
  unfold formatted_body, same_glimpse. destruct (N.ltb_spec 100 (N.of_nat (List.length b))) as [L|L], (N.ltb_spec 100 (N.of_nat (List.length b'))) as [L'|L'].
  - split; [intro E|intros [-> _]; reflexivity]. apply bytes_prefix_free in E. split; [apply E|lia].
  - split; [intro E|intros [_ E]; lia]. exfalso. rewrite <- (app_nil_r (debug_bytes b')) in E. apply bytes_prefix_free in E. destruct E as [_ E]. discriminate E.
  - split; [intro E|intros [_ E]; lia]. exfalso. rewrite <- (app_nil_r (debug_bytes b)) in E. apply bytes_prefix_free in E. destruct E as [_ E]. discriminate E.
  - rewrite !firstn_all2 by lia. split; [intro E|intros [-> _]; reflexivity]. apply bytes_inj in E. split; [exact E|lia].
Qed.

(** ** C163 *)
(** The text of a response tells everything but what follows the first hundred bytes of its body. *)
Theorem C163_text_tells_the_response :
  forall (plain : N -> bool) (r r' : http_response), text_headers (hs_headers r) -> text_headers (hs_headers r') ->
  (debug_response plain r = debug_response plain r' <->
   hs_status r = hs_status r' /\ hs_headers r = hs_headers r' /\ same_glimpse (hs_body r) (hs_body r') /\ hs_upgrade r = hs_upgrade r').
Proof.
  intros plain [s h b u] [s' h' b' u'] T T'. unfold debug_response. cbn [hs_status hs_headers hs_body hs_upgrade] in *. split.
  - intro E. apply app_inv_head in E. apply status_prefix_free in E. destruct E as [-> E]. apply app_inv_head in E.
    apply (headers_prefix_free plain) in E; [|exact T|exact T']. destruct E as [-> E]. apply app_inv_head in E.
    apply (str_prefix_free plain) in E; [|apply body_text|apply body_text]. destruct E as [B E]. apply app_inv_head in E. apply upgrade_inj in E. destruct E as [-> _].
    apply body_glimpse in B. auto.
  - intros (-> & -> & B & ->). apply body_glimpse in B. rewrite B. reflexivity.
Qed.
Print Assumptions C163_text_tells_the_response.
(** Responses with bodies of at most a hundred bytes and the same text are the same. *)
Theorem C163_text_tells_short_responses :
  forall (plain : N -> bool) (r r' : http_response), text_headers (hs_headers r) -> text_headers (hs_headers r') ->
  (List.length (hs_body r) <= 100)%nat -> debug_response plain r = debug_response plain r' -> r = r'.
Proof.
  intros plain r r' T T' L E. apply C163_text_tells_the_response in E; [|exact T|exact T']. destruct r as [s h b u], r' as [s' h' b' u']. cbn [hs_status hs_headers hs_body hs_upgrade] in *.
  destruct E as (-> & -> & [F G] & ->). rewrite !firstn_all2 in F by lia. rewrite F. reflexivity.
Qed.
Print Assumptions C163_text_tells_short_responses.
(** What is written for the body is at most five hundred and nine bytes long, whatever the body: the numbers of its
    first hundred bytes, followed by three dots if there are more. *)
Theorem C163_body_text_is_bounded :
  forall (plain : N -> bool) (r : http_response), shows_ascii plain ->
  exists body : bytes, (List.length body <= 509)%nat /\
    body = concat ([bs """"; debug_bytes (firstn 100 (hs_body r))] ++ (if (100 <? List.length (hs_body r))%nat then [bs "..."] else []) ++ [bs """"]) /\
    debug_response plain r = concat [bs "HttpResponse { status_code: StatusCodeWrapper("; dec (hs_status r); bs "), headers: "; debug_vec (map (debug_header plain) (hs_headers r));
      bs ", body: "; body; bs ", upgrade: "; match hs_upgrade r with None => bs "None" | Some true => bs "Some(true)" | Some false => bs "Some(false)" end; bs " }"].
Proof.
  intros plain [s h b u] P. cbn [hs_status hs_headers hs_body hs_upgrade]. exists (debug_str plain (formatted_body b)).
  rewrite (clear_shown plain _ P (body_clear b)). split; [|split].
  - rewrite !app_length. change (List.length (bs """")) with 1%nat. unfold formatted_body. destruct (N.ltb_spec 100 (N.of_nat (List.length b))) as [L|L].
    + rewrite app_length. assert (Z := bytes_short (firstn 100 b)). rewrite firstn_length in Z. change (List.length (bs "...")) with 3%nat. lia.
    + assert (Z := bytes_short b). lia.
  - unfold formatted_body. destruct (N.ltb_spec 100 (N.of_nat (List.length b))) as [L|L], (Nat.ltb_spec 100 (List.length b)) as [L'|L']; try lia; cbn [concat app]; rewrite ?app_nil_r, <- ?app_assoc; [reflexivity|].
    rewrite firstn_all2 by lia. reflexivity.
  - unfold debug_response, debug_status, debug_headers. cbn [hs_status hs_headers hs_body hs_upgrade]. rewrite (clear_shown plain _ P (body_clear b)).
    cbn [concat hs_status hs_headers hs_body hs_upgrade]. rewrite app_nil_r. rewrite <- !app_assoc. destruct u as [[]|]; reflexivity.
Qed.
Print Assumptions C163_body_text_is_bounded.
(** The texts of the other three are not cut: each tells the value. *)
Theorem C163_text_tells_the_update_response :
  forall (plain : N -> bool) (r r' : http_update_response), text_headers (us_headers r) -> text_headers (us_headers r') ->
  debug_update_response plain r = debug_update_response plain r' -> r = r'.
Proof.
  intros plain [s h b] [s' h' b'] T T' E. unfold debug_update_response in E. cbn [us_status us_headers us_body] in *. apply app_inv_head in E.
  apply status_prefix_free in E. destruct E as [-> E]. apply app_inv_head in E.
  apply (headers_prefix_free plain) in E; [|exact T|exact T']. destruct E as [-> E]. apply app_inv_head in E. apply bytes_prefix_free in E. destruct E as [-> _]. reflexivity.
Qed.
Print Assumptions C163_text_tells_the_update_response.
Theorem C163_text_tells_the_request :
  forall (plain : N -> bool) (q q' : http_request), method_name (hq_method q) -> method_name (hq_method q') -> text (hq_url q) -> text (hq_url q') ->
  text_headers (hq_headers q) -> text_headers (hq_headers q') ->
  debug_request plain q = debug_request plain q' -> q = q'.
Proof.
  intros plain [m u h b v] [m' u' h' b' v'] M M' U U' T T' E. unfold debug_request in E. cbn [hq_method hq_url hq_headers hq_body hq_version] in *. apply app_inv_head in E.
  apply method_prefix_free in E; [|exact M|exact M']. destruct E as [-> E]. apply app_inv_head in E.
  apply (str_prefix_free plain) in E; [|exact U|exact U']. destruct E as [-> E]. apply app_inv_head in E.
  apply (headers_prefix_free plain) in E; [|exact T|exact T']. destruct E as [-> E]. apply app_inv_head in E. apply bytes_prefix_free in E. destruct E as [-> E]. apply app_inv_head in E.
  apply version_inj in E. destruct E as [-> _]. reflexivity.
Qed.
Print Assumptions C163_text_tells_the_request.
Theorem C163_text_tells_the_update_request :
  forall (plain : N -> bool) (q q' : http_update_request), method_name (uq_method q) -> method_name (uq_method q') -> text (uq_url q) -> text (uq_url q') ->
  text_headers (uq_headers q) -> text_headers (uq_headers q') ->
  debug_update_request plain q = debug_update_request plain q' -> q = q'.
Proof.
  intros plain [m u h b] [m' u' h' b'] M M' U U' T T' E. unfold debug_update_request in E. cbn [uq_method uq_url uq_headers uq_body] in *. apply app_inv_head in E.
  apply method_prefix_free in E; [|exact M|exact M']. destruct E as [-> E]. apply app_inv_head in E.
  apply (str_prefix_free plain) in E; [|exact U|exact U']. destruct E as [-> E]. apply app_inv_head in E.
  apply (headers_prefix_free plain) in E; [|exact T|exact T']. destruct E as [-> E]. apply app_inv_head in E. apply bytes_prefix_free in E. destruct E as [-> _]. reflexivity.
Qed.
Print Assumptions C163_text_tells_the_update_request.

(** ** A case *)
Definition c163_plain (c : N) : bool := (32 <=? c) && (c <? 127).
Definition c163_response (n : nat) (last : byte) : http_response :=
  mk_http_response 200 [(bs "Content-Type", bs "text/""html""")] (repeat "A"%byte n ++ [last]) (Some false).
Example C163_nonvacuous :
  shows_ascii c163_plain /\ text_headers (hs_headers (c163_response 2 "B"%byte)) /\
  debug_response c163_plain (c163_response 2 "B"%byte) =
    bs "HttpResponse { status_code: StatusCodeWrapper(200), headers: [(""Content-Type"", ""text/\""html\"""")], body: ""[65, 65, 66]"", upgrade: Some(false) }" /\
  (* bodies that differ after their first hundred bytes are shown alike; bodies of a hundred bytes are not *)
  debug_response c163_plain (c163_response 100 "B"%byte) = debug_response c163_plain (c163_response 100 "C"%byte) /\
  debug_response c163_plain (c163_response 99 "B"%byte) <> debug_response c163_plain (c163_response 99 "C"%byte) /\
  debug_response c163_plain (c163_response 99 "A"%byte) <> debug_response c163_plain (c163_response 100 "A"%byte) /\
  debug_request c163_plain (mk_http_request (bs "GET") (bs "/a") [] (bs "A") (Some 2)) =
    bs "HttpRequest { method: MethodWrapper(GET), url: ""/a"", headers: [], body: [65], certificate_version: Some(2) }" /\
  method_name (bs "GET") /\ text (bs "/a").
Proof.
  split; [intros c L U; unfold c163_plain; apply andb_true_iff; split; [apply N.leb_le; exact L|apply N.ltb_lt; exact U]|].
  split; [constructor; [split; vm_compute; reflexivity|constructor]|].
  split; [vm_compute; reflexivity|]. split; [vm_compute; reflexivity|].
  split; [intro E; vm_compute in E; discriminate E|]. split; [intro E; vm_compute in E; discriminate E|].
  split; [vm_compute; reflexivity|]. split; [|vm_compute; reflexivity]. intro I. vm_compute in I. repeat (destruct I as [I|I]; [discriminate I|]). exact I.
Qed.
