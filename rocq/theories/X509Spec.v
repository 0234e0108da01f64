(** Small specification for certificates: a certificate with its embedded items and its
    critical flags replaced. *)
From Verif Require Import Base Asn1Model Asn1Spec X509Model.

Definition algorithm_map (g : item -> item) (a : algorithm) : algorithm := {| al_oid := al_oid a; al_params := option_map g (al_params a) |}.
Definition rdn_map (g : item -> item) (r : rdn) : rdn := {| rdn_id := rdn_id r; rdn_value := g (rdn_value r) |}.
Definition spki_map (g : item -> item) (s : spki) : spki := {| sp_alg := algorithm_map g (sp_alg s); sp_key := sp_key s |}.
Definition extension_map (gb : bool -> bool) (x : extension) : extension := {| ex_id := ex_id x; ex_critical := gb (ex_critical x); ex_data := ex_data x |}.
Definition tbs_map (g : item -> item) (gb : bool -> bool) (t : tbs) : tbs :=
  {| tb_version := tb_version t; tb_serial := tb_serial t; tb_signature := algorithm_map g (tb_signature t); tb_issuer := map (rdn_map g) (tb_issuer t);
     tb_validity := tb_validity t; tb_subject := map (rdn_map g) (tb_subject t); tb_key := spki_map g (tb_key t);
     tb_issuer_id := tb_issuer_id t; tb_subject_id := tb_subject_id t; tb_extensions := map (extension_map gb) (tb_extensions t) |}.
Definition certificate_map (g : item -> item) (gb : bool -> bool) (c : certificate) : certificate :=
  {| ce_tbs := tbs_map g gb (ce_tbs c); ce_alg := algorithm_map g (ce_alg c); ce_value := ce_value c |}.
(** An item as the DER writer leaves it, without byte ranges. *)
Definition written (i : item) : item := erase (drop_true i).
