(* What a ticket description must look like, independent of the checks in the
   code. *)
From Coq Require Import ZArith List Bool String.
From Verif Require Import UrlModel ControlModel.
Import ListNotations.
Open Scope Z_scope.

Definition given (d : list (str * json)) (k : string) (x : json) : Prop := In (lit k, x) d.
Definition absent (d : list (str * json)) (k : string) : Prop := forall x, ~ In (lit k, x) d.

Definition is_str (x : json) : Prop := exists s, x = JStr s.
Definition is_bool (x : json) : Prop := exists b, x = JBool b.
(* For Python a bool is an int. *)
Definition is_int (x : json) : Prop := (exists n, x = JInt n) \/ is_bool x.
Definition is_list (x : json) : Prop := exists l, x = JList l.

(* A URL with a scheme some backend handles. *)
Definition usable_url (v : env) (s : str) : Prop :=
  exists p, urlparse (e_netloc_ok v) s = Some p
  /\ In (p_scheme p) [lit "file"; lit "http"; lit "https"; lit "nbd"].

(* Required fields present, all fields of the right type. *)
Definition valid (v : env) (x : json) : Prop :=
  exists d, x = JObj d
  /\ (exists y, given d "uuid" y /\ is_str y)
  /\ (exists y, given d "size" y /\ is_int y)
  /\ (exists y, given d "ops" y /\ is_list y)
  /\ (exists y, given d "timeout" y /\ is_int y)
  /\ (exists s, given d "url" (JStr s) /\ usable_url v s)
  /\ (forall y, given d "inactivity_timeout" y -> is_int y)
  /\ (forall y, given d "transfer_id" y -> is_str y)
  /\ (forall y, given d "filename" y -> is_str y)
  /\ (forall y, given d "sparse" y -> is_bool y)
  /\ (forall y, given d "dirty" y -> is_bool y).

(* The value given, or the default. *)
Definition value_or (d : list (str * json)) (k : string) (default x : json) : Prop :=
  given d k x \/ (absent d k /\ x = default).

(* JSON objects have different keys. *)
Definition object (x : json) : Prop := forall d, x = JObj d -> NoDup (map fst d).

Definition number (x : json) (n : Z) : Prop :=
  x = JInt n \/ (x = JBool true /\ n = 1) \/ (x = JBool false /\ n = 0).

(* The ticket for a description, made at the given second. *)
Definition ticket_of (v : env) (now : Z) (d : list (str * json)) (t : ticket) : Prop :=
  given d "uuid" (t_uuid t) /\ given d "size" (t_size t) /\ given d "ops" (t_ops t)
  /\ given d "timeout" (t_timeout t) /\ given d "url" (t_url t)
  /\ value_or d "inactivity_timeout" (JInt (e_inactivity v)) (t_inactivity t)
  /\ (given d "transfer_id" (t_transfer_id t)
      \/ (absent d "transfer_id" /\ exists uuid, given d "uuid" (JStr uuid)
          /\ t_transfer_id t = JStr (lit "(ticket/" ++ firstn 18 uuid ++ lit ")")))
  /\ value_or d "filename" JNull (t_filename t)
  /\ value_or d "sparse" (JBool false) (t_sparse t)
  /\ value_or d "dirty" (JBool false) (t_dirty t)
  /\ (exists n, number (t_timeout t) n /\ t_expires t = now + n)
  /\ t_access t = now /\ t_canceled t = false /\ t_usage t = Usage 0 0 0.

(* The ticket stored for an id. *)
Definition stored (s : store) (id : str) (t : ticket) : Prop := In (id, t) s.
Definition not_stored (s : store) (id : str) : Prop := forall t, ~ In (id, t) s.
(* The store is a dictionary. *)
Definition dictionary (s : store) : Prop := NoDup (map fst s).
(* The same for everything but the ticket id. *)
Definition same_but (id : str) (s s' : store) : Prop :=
  forall i t, i <> id -> (stored s' i t <-> stored s i t).
Definition same (s s' : store) : Prop := forall i t, stored s' i t <-> stored s i t.
