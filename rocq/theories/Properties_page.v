(** Properties of the assembled page (C78). *)
From Verif Require Import SpecPage TrPageDemo TrDemo.
From Verif Require Import NodeOps Monad.
Local Open Scope string_scope.
Local Open Scope list_scope.

(** ** C78 *)

Theorem C78_page_assembled : forall hl f s t s' h, manuscript s t -> showable s t ->
  translate hl f (root t) s = (s', Ok h) -> plain_page h = tree_page f hl s t.
Proof. exact page_assembled. Qed.
Print Assumptions C78_page_assembled.
Example C78_page_assembled_nonvacuous : manuscript (built pagedoc) (wtree pagedoc) /\ showable (built pagedoc) (wtree pagedoc) /\
  (exists s', translate nohl 100 (root (wtree pagedoc)) (built pagedoc) = (s', Ok pagedoc_html)) /\
  tree_page 100 nohl (built pagedoc) (wtree pagedoc) = lit (
    "<body><div><div><section><h1>T</h1>" ++
    "<div><h3>Abstract</h3><div>short</div>Keywords: k1, k2</div>" ++
    "<section><h2>2. One</h2>" ++
    "<div><span>P.</span>see <a>Theorem 2.3</a><span><strong><span>\(x\)</span></strong></span></div>" ++
    "<div><div><span>Theorem 2.3: </span><span>Main</span></div><div>claim</div></div>" ++
    "<div><div><span>Proof.</span></div><div>step</div><div></div></div></section>" ++
    "<figure><img src=""f.png"" alt=""Figure 1.""><figcaption><span>Figure 1. </span>c</figcaption></figure>" ++
    "</section></div></div></body>")%string.
Proof. split; [exact pagedoc_manuscript|]. split; [exact pagedoc_showable|]. split; [exact (proj2 pagedoc_ok)|vm_compute; reflexivity]. Qed.
