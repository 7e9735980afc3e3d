(** The model against the project's own expected outputs: each example is a
    test of /repo/tests, its input written as the tree that the parser builds,
    its expected HTML copied from the test file.  Generated from the test files
    by a script that reads them as text. *)
From Verif Require Import Build Handrails.
Local Open Scope string_scope.
Local Open Scope list_scope.

Definition render_doc (handrails : bool) (t : bt) : option str :=
  match run (let! d := build t in do! transform 200 [] d in
             if handrails then translate_handrails (fun s _ => s) false 200 d
             else translate (fun s _ => s) 200 d) with
  | (_, Ok ts) => Some (lstrip (render ts))
  | (_, Err _) => None
  end.

(** test_references.py, [test_reftext] *)
Example test_refs :
  render_doc false (BT CManuscript [] [BT CSection [(a_title, VStr (lit "First")); (a_label, VStr (lit "sec-lbl"))] [BT CParagraph [] [txt "Content of first."]; BT CParagraph [] [txt "This is a paragraph that refers to "; BT CPendingReference [(a_target, VStr (lit "sec-lbl"))] []; txt "."]]])
  = Some (lit "<body>

<div class=""manuscriptwrapper"">

<div class=""manuscript"" data-nodeid=""0"">

<section class=""level-1"">

<section id=""sec-lbl"" class=""section level-2"" data-nodeid=""1"">

<h2>1. First</h2>

<div class=""paragraph"" data-nodeid=""2"">

<p>Content of first.</p>

</div>

<div class=""paragraph"" data-nodeid=""4"">

<p>This is a paragraph that refers to <a class=""reference"" href=""#sec-lbl"">Section 1</a>.</p>

</div>

</section>

</section>

</div>

</div>

</body>
").
Proof. vm_compute. reflexivity. Qed.

(** test_references.py, [test_ref_to_unknown_label] *)
Example test_unknown_ref :
  render_doc false (BT CManuscript [] [BT CParagraph [] [BT CPendingReference [(a_target, VStr (lit "foo"))] []]])
  = Some (lit "<body>

<div class=""manuscriptwrapper"">

<div class=""manuscript"" data-nodeid=""0"">

<section class=""level-1"">

<div class=""paragraph"" data-nodeid=""1"">

<p><span class=""error"" data-nodeid=""2"">[unknown label ""foo""]</span></p>

</div>

</section>

</div>

</div>

</body>
").
Proof. vm_compute. reflexivity. Qed.

(** test_references.py, [test_cite_to_unknown_label] *)
Example test_unknown_cite :
  render_doc false (BT CManuscript [] [BT CParagraph [] [txt "This is an unknown cite "; BT CPendingCite [(a_targetlabels, VStrs [lit "foobar"])] []; txt "."]])
  = Some (lit "<body>

<div class=""manuscriptwrapper"">

<div class=""manuscript"" data-nodeid=""0"">

<section class=""level-1"">

<div class=""paragraph"" data-nodeid=""1"">

<p>This is an unknown cite [<a id=""cite-0"" class=""reference cite unknown"" href=""#"">[unknown label ""foobar""]</a>].</p>

</div>

</section>

</div>

</div>

</body>
").
Proof. vm_compute. reflexivity. Qed.

(** test_bibliography.py, [test_many] *)
Example test_bib_many :
  render_doc false (BT CManuscript [(a_title, VStr (lit "My Title"))] [BT CParagraph [] [txt "This has a citation at the end. "; BT CPendingCite [(a_targetlabels, VStrs [lit "torres2020"; lit "knuth"])] []]; BT CBibliography [] [BT CBibitem [(a_label, VStr (lit "torres2020")); (a_kind, VStr (lit "article")); (a_title, VStr (lit "Nonbacktracking eigenvalues under node removal: X-centrality and targeted immunization")); (a_author, VStr (lit "Torres, Leo and Chan, Kevin S and Tong, Hanghang and Eliassi-Rad, Tina")); (a_journal, VStr (lit "SIAM Journal on Mathematics of Data Science")); (a_year, VStr (lit "2021"))] []; BT CBibitem [(a_label, VStr (lit "knuth")); (a_kind, VStr (lit "book")); (a_title, VStr (lit "Art of computer programming, volume 2: Seminumerical algorithms")); (a_author, VStr (lit "Knuth, Donald E")); (a_year, VStr (lit "2014")); (a_publisher, VStr (lit "Addison-Wesley Professional"))] []]])
  = Some (lit "<body>

<div class=""manuscriptwrapper"">

<div class=""manuscript"" data-nodeid=""0"">

<section class=""level-1"">

<h1>My Title</h1>

<div class=""paragraph"" data-nodeid=""1"">

<p>This has a citation at the end. [<span id=""cite-0""><a id=""cite-0-0"" class=""reference cite"" href=""#torres2020"">1</a>, <a id=""cite-0-1"" class=""reference cite"" href=""#knuth"">2</a></span>]</p>

</div>

<section class=""level-2"">

<h2>References</h2>

<ol class=""bibliography"" data-nodeid=""4"">

<li id=""torres2020"" class=""bibitem"" data-nodeid=""5"">
1. Torres, Leo and Chan, Kevin S and Tong, Hanghang and Eliassi-Rad, Tina. ""Nonbacktracking eigenvalues under node removal: X-centrality and targeted immunization"". SIAM Journal on Mathematics of Data Science. 2021.<br />[<a class=""reference backlink"" href=""#cite-0"">↖1</a>]
</li>

<li id=""knuth"" class=""bibitem"" data-nodeid=""6"">
2. Knuth, Donald E. ""Art of computer programming, volume 2: Seminumerical algorithms"". Addison-Wesley Professional. 2014.<br />[<a class=""reference backlink"" href=""#cite-0"">↖1</a>]
</li>

</ol>

</section>

</section>

</div>

</div>

</body>
").
Proof. vm_compute. reflexivity. Qed.

(** test_author.py, [test_simple] *)
Example test_author :
  render_doc false (BT CManuscript [(a_label, VStr (lit "mylbl")); (a_title, VStr (lit "My Title"))] [BT CAuthor [(a_name, VStr (lit "Leo Torres")); (a_affiliation, VStr (lit "Max Planck Institute for Mathematics in the Sciences")); (a_email, VStr (lit "leo@leotrs.com"))] []])
  = Some (lit "<body>

<div class=""manuscriptwrapper"">

<div id=""mylbl"" class=""manuscript"" data-nodeid=""0"">

<section class=""level-1"">

<h1>My Title</h1>

<div class=""author"" data-nodeid=""1"">

<div class=""paragraph"">

<p>Leo Torres</p>

<p>Max Planck Institute for Mathematics in the Sciences</p>

<p><a href=""mailto:leo@leotrs.com"">leo@leotrs.com</a></p>
</div>
</div>

</section>

</div>

</div>

</body>
").
Proof. vm_compute. reflexivity. Qed.

(** test_figure.py, [test_simple] *)
Example test_figure :
  render_doc false (BT CManuscript [] [BT CFigure [(a_path, VStr (lit "assets/example.png"))] [BT CCaption [] [txt "This is the figure caption."]]])
  = Some (lit "<body>

<div class=""manuscriptwrapper"">

<div class=""manuscript"" data-nodeid=""0"">

<section class=""level-1"">

<figure class=""figure"" data-nodeid=""1"">
<img src=""assets/example.png"" alt=""Figure 1."">
<figcaption>
<span class=""label"">Figure 1. </span>This is the figure caption.
</figcaption>

</figure>

</section>

</div>

</div>

</body>
").
Proof. vm_compute. reflexivity. Qed.

(** test_proof.py, [test_simple] *)
Example test_proof :
  render_doc false (BT CManuscript [] [BT CTheorem [] [BT CParagraph [] [txt "All "; BT CMath [] [BT CText [(a_text, VStr (lit "X")); (a_asis, VBool true)] []]; txt " are "; BT CMath [] [BT CText [(a_text, VStr (lit "Y")); (a_asis, VBool true)] []]; txt "."]]; BT CProof [] [BT CStep [] [BT CParagraph [] [txt "Axiom."]]]])
  = Some (lit "<body>

<div class=""manuscriptwrapper"">

<div class=""manuscript"" data-nodeid=""0"">

<section class=""level-1"">

<div class=""theorem"" data-nodeid=""1"">

<div class=""paragraph hr-label"">

<p><span class=""span label"">Theorem 1.</span></p>

</div>

<div class=""paragraph"" data-nodeid=""2"">

<p>All <span class=""math"" data-nodeid=""4"">\(X\)</span> are <span class=""math"" data-nodeid=""7"">\(Y\)</span>.</p>

</div>

</div>

<div class=""proof"" data-nodeid=""10"">

<div class=""paragraph hr-label"">

<p><span class=""span label"">Proof.</span></p>

</div>

<div class=""step last"" data-nodeid=""11"">

<div class=""statement"" data-nodeid=""12"">

<div class=""paragraph"" data-nodeid=""13"">

<p>Axiom.</p>

</div>

</div>

</div>

<div class=""halmos""></div>

</div>

</section>

</div>

</div>

</body>
").
Proof. vm_compute. reflexivity. Qed.

(** test_proof.py, [test_sub_step] *)
Example test_sub_step :
  render_doc false (BT CManuscript [] [BT CProof [] [BT CStep [] [BT CParagraph [] [txt "Top level step."]; BT CStep [] [BT CParagraph [] [txt "Sub-step."]; BT CSubproof [] [BT CParagraph [] [txt "Sub-proof."]]]]]])
  = Some (lit "<body>

<div class=""manuscriptwrapper"">

<div class=""manuscript"" data-nodeid=""0"">

<section class=""level-1"">

<div class=""proof"" data-nodeid=""1"">

<div class=""paragraph hr-label"">

<p><span class=""span label"">Proof.</span></p>

</div>

<div class=""step last"" data-nodeid=""2"">

<div class=""statement"" data-nodeid=""3"">

<div class=""paragraph"" data-nodeid=""4"">

<p>Top level step.</p>

</div>

</div>

<div class=""subproof"" data-nodeid=""6"">

<div class=""step"" data-nodeid=""7"">

<div class=""statement"" data-nodeid=""8"">

<div class=""paragraph"" data-nodeid=""9"">

<p>Sub-step.</p>

</div>

</div>

<div class=""subproof"" data-nodeid=""11"">

<div class=""paragraph"" data-nodeid=""12"">

<p>Sub-proof.</p>

</div>

</div>

</div>

</div>

</div>

<div class=""halmos""></div>

</div>

</section>

</div>

</div>

</body>
").
Proof. vm_compute. reflexivity. Qed.

(** test_proof.py, [test_two_steps] *)
Example test_two_steps :
  render_doc false (BT CManuscript [] [BT CProof [] [BT CStep [] [BT CParagraph [] [txt "First step."]]; BT CStep [] [BT CParagraph [] [txt "Secon step."]]]])
  = Some (lit "<body>

<div class=""manuscriptwrapper"">

<div class=""manuscript"" data-nodeid=""0"">

<section class=""level-1"">

<div class=""proof"" data-nodeid=""1"">

<div class=""paragraph hr-label"">

<p><span class=""span label"">Proof.</span></p>

</div>

<div class=""step"" data-nodeid=""2"">

<div class=""statement"" data-nodeid=""3"">

<div class=""paragraph"" data-nodeid=""4"">

<p>First step.</p>

</div>

</div>

</div>

<div class=""step last"" data-nodeid=""6"">

<div class=""statement"" data-nodeid=""7"">

<div class=""paragraph"" data-nodeid=""8"">

<p>Secon step.</p>

</div>

</div>

</div>

<div class=""halmos""></div>

</div>

</section>

</div>

</div>

</body>
").
Proof. vm_compute. reflexivity. Qed.

(** test_math.py, [test_display_alone] *)
Example test_display :
  render_doc false (BT CManuscript [] [BT CParagraph [] [txt "Some math "; BT CMathBlock [(a_label, VStr (lit "eqn-plus")); (a_types, VStrs [lit "smallequation"])] [BT CText [(a_text, VStr (lit "2 + 2 = 4")); (a_asis, VBool true)] []]]])
  = Some (lit "<body>

<div class=""manuscriptwrapper"">

<div class=""manuscript"" data-nodeid=""0"">

<section class=""level-1"">

<div class=""paragraph"" data-nodeid=""1"">

<p>Some math </p>
<div id=""eqn-plus"" class=""mathblock smallequation"" data-nodeid=""3"">
$$
2 + 2 = 4
$$
</div>

</div>

</section>

</div>

</div>

</body>
").
Proof. vm_compute. reflexivity. Qed.

(** test_appendix.py, [test_theorem] *)
Example test_appendix_theorem :
  render_doc false (BT CManuscript [] [BT CSection [(a_title, VStr (lit "Foo"))] [BT CSubsection [(a_title, VStr (lit "Sub Foo"))] [BT CTheorem [] []]]; BT CAppendix [] []; BT CSection [(a_title, VStr (lit "Bar"))] [BT CSubsection [(a_title, VStr (lit "Sub Bar"))] [BT CTheorem [] []]]])
  = Some (lit "<body>

<div class=""manuscriptwrapper"">

<div class=""manuscript"" data-nodeid=""0"">

<section class=""level-1"">

<section class=""section level-2"" data-nodeid=""1"">

<h2>1. Foo</h2>

<section class=""subsection level-3"" data-nodeid=""2"">

<h3>1.1. Sub Foo</h3>

<div class=""theorem"" data-nodeid=""3"">

<div class=""paragraph hr-label"">

<p><span class=""span label"">Theorem 1.1.</span></p>

</div>

</div>

</section>

</section>

<section class=""section level-2"" data-nodeid=""5"">

<h2>A. Bar</h2>

<section class=""subsection level-3"" data-nodeid=""6"">

<h3>A.1. Sub Bar</h3>

<div class=""theorem"" data-nodeid=""7"">

<div class=""paragraph hr-label"">

<p><span class=""span label"">Theorem A.1.</span></p>

</div>

</div>

</section>

</section>

</section>

</div>

</div>

</body>
").
Proof. vm_compute. reflexivity. Qed.

(** test_appendix.py, [test_section_reftext] *)
Example test_appendix_ref :
  render_doc false (BT CManuscript [] [BT CParagraph [] [BT CPendingReference [(a_target, VStr (lit "app"))] []]; BT CAppendix [] []; BT CSection [(a_title, VStr (lit "Foo bar")); (a_label, VStr (lit "app"))] []])
  = Some (lit "<body>

<div class=""manuscriptwrapper"">

<div class=""manuscript"" data-nodeid=""0"">

<section class=""level-1"">

<div class=""paragraph"" data-nodeid=""1"">

<p><a class=""reference"" href=""#app"">Appendix A</a></p>

</div>

<section id=""app"" class=""section level-2"" data-nodeid=""4"">

<h2>A. Foo bar</h2>

</section>

</section>

</div>

</div>

</body>
").
Proof. vm_compute. reflexivity. Qed.

(** test_previous.py, [test_works_with_no_reftext_and_label] *)
Example test_previous :
  render_doc false (BT CManuscript [] [BT CProof [] [BT CStep [(a_label, VStr (lit "lbl"))] [BT CParagraph [] [txt "Foo."]]; BT CStep [] [BT CParagraph [] [txt "Bar "; BT CPendingPrev [(a_target, VStr (lit "1"))] []; txt "."]]]])
  = Some (lit "<body>

<div class=""manuscriptwrapper"">

<div class=""manuscript"" data-nodeid=""0"">

<section class=""level-1"">

<div class=""proof"" data-nodeid=""1"">

<div class=""paragraph hr-label"">

<p><span class=""span label"">Proof.</span></p>

</div>

<div id=""lbl"" class=""step"" data-nodeid=""2"">

<div class=""statement"" data-nodeid=""3"">

<div class=""paragraph"" data-nodeid=""4"">

<p>Foo.</p>

</div>

</div>

</div>

<div class=""step last"" data-nodeid=""6"">

<div class=""statement"" data-nodeid=""7"">

<div class=""paragraph"" data-nodeid=""8"">

<p>Bar <a class=""reference"" href=""#lbl"">Step ⟨1⟩</a>.</p>

</div>

</div>

</div>

<div class=""halmos""></div>

</div>

</section>

</div>

</div>

</body>
").
Proof. vm_compute. reflexivity. Qed.

(** test_handrails.py, [test_manuscript] *)
Example test_hr_manuscript :
  render_doc true (BT CManuscript [(a_title, VStr (lit "Some Title"))] [BT CParagraph [] [txt "Hello."]])
  = Some (lit "<body>

<div class=""manuscriptwrapper"">

<div class=""manuscript"" data-nodeid=""0"">

<section class=""level-1"">

<div class=""heading hr"" tabindex=0>

<div class=""hr-collapse-zone"">

            <div class=""hr-collapse"">
              <div class=""icon collapse"">
              </div>
            </div>

</div>

<div class=""hr-menu-zone"">

<div class=""hr-menu"">

  <div class=""hr-menu-label"">
    <span class=""hr-menu-item-text"">Title</span>
  </div>

  <div class=""hr-menu-separator""></div>

  <div class=""hr-menu-item link"">
    <span class=""icon link"">
    </span>
    <span class=""hr-menu-item-text"">Copy link</span>
  </div>

  <div class=""hr-menu-item"">
    <span class=""icon tree"">
    </span>
    <span class=""hr-menu-item-text"">Tree</span>
  </div>

  <div class=""hr-menu-item"">
    <span class=""icon code"">
    </span>
    <span class=""hr-menu-item-text"">Source</span>
  </div>

</div>

</div>

<div class=""hr-border-zone"">

                <div class=""hr-border-dots"">
                  <div class=""icon dots"">
                  </div>
                </div>
                <div class=""hr-border-rect"">
                </div>

</div>

<div class=""hr-spacer-zone"">
<div class=""hr-spacer""></div>
</div>

<div class=""hr-content-zone"">

<h1>Some Title</h1>

</div>

<div class=""hr-info-zone"">
<div class=""hr-info""></div>
</div>

</div>

<div class=""paragraph hr hr-hidden"" tabindex=0 data-nodeid=""1"">

<div class=""hr-collapse-zone"">
<div class=""hr-spacer""></div>
</div>

<div class=""hr-menu-zone"">

<div class=""hr-menu"">

  <div class=""hr-menu-label"">
    <span class=""hr-menu-item-text"">Paragraph</span>
  </div>

  <div class=""hr-menu-separator""></div>

  <div class=""hr-menu-item link disabled"">
    <span class=""icon link"">
    </span>
    <span class=""hr-menu-item-text"">Copy link</span>
  </div>

  <div class=""hr-menu-item"">
    <span class=""icon tree"">
    </span>
    <span class=""hr-menu-item-text"">Tree</span>
  </div>

  <div class=""hr-menu-item"">
    <span class=""icon code"">
    </span>
    <span class=""hr-menu-item-text"">Source</span>
  </div>

</div>

</div>

<div class=""hr-border-zone"">

                <div class=""hr-border-dots"">
                  <div class=""icon dots"">
                  </div>
                </div>
                <div class=""hr-border-rect"">
                </div>

</div>

<div class=""hr-spacer-zone"">
<div class=""hr-spacer""></div>
</div>

<div class=""hr-content-zone"">

<p>Hello.</p>

</div>

<div class=""hr-info-zone"">
<div class=""hr-info""></div>
</div>

</div>

</section>

</div>

</div>

</body>
").
Proof. vm_compute. reflexivity. Qed.

(** test_handrails.py, [test_section] *)
Example test_hr_section :
  render_doc true (BT CManuscript [(a_title, VStr (lit "Some Title"))] [BT CSection [(a_title, VStr (lit "Section"))] [BT CParagraph [] [txt "Hello."]]])
  = Some (lit "<body>

<div class=""manuscriptwrapper"">

<div class=""manuscript"" data-nodeid=""0"">

<section class=""level-1"">

<div class=""heading hr"" tabindex=0>

<div class=""hr-collapse-zone"">

            <div class=""hr-collapse"">
              <div class=""icon collapse"">
              </div>
            </div>

</div>

<div class=""hr-menu-zone"">

<div class=""hr-menu"">

  <div class=""hr-menu-label"">
    <span class=""hr-menu-item-text"">Title</span>
  </div>

  <div class=""hr-menu-separator""></div>

  <div class=""hr-menu-item link"">
    <span class=""icon link"">
    </span>
    <span class=""hr-menu-item-text"">Copy link</span>
  </div>

  <div class=""hr-menu-item"">
    <span class=""icon tree"">
    </span>
    <span class=""hr-menu-item-text"">Tree</span>
  </div>

  <div class=""hr-menu-item"">
    <span class=""icon code"">
    </span>
    <span class=""hr-menu-item-text"">Source</span>
  </div>

</div>

</div>

<div class=""hr-border-zone"">

                <div class=""hr-border-dots"">
                  <div class=""icon dots"">
                  </div>
                </div>
                <div class=""hr-border-rect"">
                </div>

</div>

<div class=""hr-spacer-zone"">
<div class=""hr-spacer""></div>
</div>

<div class=""hr-content-zone"">

<h1>Some Title</h1>

</div>

<div class=""hr-info-zone"">
<div class=""hr-info""></div>
</div>

</div>

<section class=""section level-2"" data-nodeid=""1"">

<div class=""heading hr"" tabindex=0>

<div class=""hr-collapse-zone"">

            <div class=""hr-collapse"">
              <div class=""icon collapse"">
              </div>
            </div>

</div>

<div class=""hr-menu-zone"">

<div class=""hr-menu"">

  <div class=""hr-menu-label"">
    <span class=""hr-menu-item-text"">Section 1</span>
  </div>

  <div class=""hr-menu-separator""></div>

  <div class=""hr-menu-item link disabled"">
    <span class=""icon link"">
    </span>
    <span class=""hr-menu-item-text"">Copy link</span>
  </div>

  <div class=""hr-menu-item"">
    <span class=""icon tree"">
    </span>
    <span class=""hr-menu-item-text"">Tree</span>
  </div>

  <div class=""hr-menu-item"">
    <span class=""icon code"">
    </span>
    <span class=""hr-menu-item-text"">Source</span>
  </div>

</div>

</div>

<div class=""hr-border-zone"">

                <div class=""hr-border-dots"">
                  <div class=""icon dots"">
                  </div>
                </div>
                <div class=""hr-border-rect"">
                </div>

</div>

<div class=""hr-spacer-zone"">
<div class=""hr-spacer""></div>
</div>

<div class=""hr-content-zone"">

<h2>1. Section</h2>

</div>

<div class=""hr-info-zone"">
<div class=""hr-info""></div>
</div>

</div>

<div class=""paragraph hr hr-hidden"" tabindex=0 data-nodeid=""2"">

<div class=""hr-collapse-zone"">
<div class=""hr-spacer""></div>
</div>

<div class=""hr-menu-zone"">

<div class=""hr-menu"">

  <div class=""hr-menu-label"">
    <span class=""hr-menu-item-text"">Paragraph</span>
  </div>

  <div class=""hr-menu-separator""></div>

  <div class=""hr-menu-item link disabled"">
    <span class=""icon link"">
    </span>
    <span class=""hr-menu-item-text"">Copy link</span>
  </div>

  <div class=""hr-menu-item"">
    <span class=""icon tree"">
    </span>
    <span class=""hr-menu-item-text"">Tree</span>
  </div>

  <div class=""hr-menu-item"">
    <span class=""icon code"">
    </span>
    <span class=""hr-menu-item-text"">Source</span>
  </div>

</div>

</div>

<div class=""hr-border-zone"">

                <div class=""hr-border-dots"">
                  <div class=""icon dots"">
                  </div>
                </div>
                <div class=""hr-border-rect"">
                </div>

</div>

<div class=""hr-spacer-zone"">
<div class=""hr-spacer""></div>
</div>

<div class=""hr-content-zone"">

<p>Hello.</p>

</div>

<div class=""hr-info-zone"">
<div class=""hr-info""></div>
</div>

</div>

</section>

</section>

</div>

</div>

</body>
").
Proof. vm_compute. reflexivity. Qed.

(** test_handrails.py, [test_abstract] *)
Example test_hr_abstract :
  render_doc true (BT CManuscript [(a_title, VStr (lit "Some Title"))] [BT CAbstract [] [BT CParagraph [] [txt "The abstract."]]])
  = Some (lit "<body>

<div class=""manuscriptwrapper"">

<div class=""manuscript"" data-nodeid=""0"">

<section class=""level-1"">

<div class=""heading hr"" tabindex=0>

<div class=""hr-collapse-zone"">

            <div class=""hr-collapse"">
              <div class=""icon collapse"">
              </div>
            </div>

</div>

<div class=""hr-menu-zone"">

<div class=""hr-menu"">

  <div class=""hr-menu-label"">
    <span class=""hr-menu-item-text"">Title</span>
  </div>

  <div class=""hr-menu-separator""></div>

  <div class=""hr-menu-item link"">
    <span class=""icon link"">
    </span>
    <span class=""hr-menu-item-text"">Copy link</span>
  </div>

  <div class=""hr-menu-item"">
    <span class=""icon tree"">
    </span>
    <span class=""hr-menu-item-text"">Tree</span>
  </div>

  <div class=""hr-menu-item"">
    <span class=""icon code"">
    </span>
    <span class=""hr-menu-item-text"">Source</span>
  </div>

</div>

</div>

<div class=""hr-border-zone"">

                <div class=""hr-border-dots"">
                  <div class=""icon dots"">
                  </div>
                </div>
                <div class=""hr-border-rect"">
                </div>

</div>

<div class=""hr-spacer-zone"">
<div class=""hr-spacer""></div>
</div>

<div class=""hr-content-zone"">

<h1>Some Title</h1>

</div>

<div class=""hr-info-zone"">
<div class=""hr-info""></div>
</div>

</div>

<div class=""abstract"" data-nodeid=""1"">

<div class=""heading hr"" tabindex=0>

<div class=""hr-collapse-zone"">

            <div class=""hr-collapse"">
              <div class=""icon collapse"">
              </div>
            </div>

</div>

<div class=""hr-menu-zone"">

<div class=""hr-menu"">

  <div class=""hr-menu-label"">
    <span class=""hr-menu-item-text"">Abstract</span>
  </div>

  <div class=""hr-menu-separator""></div>

  <div class=""hr-menu-item link disabled"">
    <span class=""icon link"">
    </span>
    <span class=""hr-menu-item-text"">Copy link</span>
  </div>

  <div class=""hr-menu-item"">
    <span class=""icon tree"">
    </span>
    <span class=""hr-menu-item-text"">Tree</span>
  </div>

  <div class=""hr-menu-item"">
    <span class=""icon code"">
    </span>
    <span class=""hr-menu-item-text"">Source</span>
  </div>

</div>

</div>

<div class=""hr-border-zone"">

                <div class=""hr-border-dots"">
                  <div class=""icon dots"">
                  </div>
                </div>
                <div class=""hr-border-rect"">
                </div>

</div>

<div class=""hr-spacer-zone"">
<div class=""hr-spacer""></div>
</div>

<div class=""hr-content-zone"">

<h3>Abstract</h3>

</div>

<div class=""hr-info-zone"">
<div class=""hr-info""></div>
</div>

</div>

<div class=""paragraph hr hr-hidden"" tabindex=0 data-nodeid=""2"">

<div class=""hr-collapse-zone"">
<div class=""hr-spacer""></div>
</div>

<div class=""hr-menu-zone"">

<div class=""hr-menu"">

  <div class=""hr-menu-label"">
    <span class=""hr-menu-item-text"">Paragraph</span>
  </div>

  <div class=""hr-menu-separator""></div>

  <div class=""hr-menu-item link disabled"">
    <span class=""icon link"">
    </span>
    <span class=""hr-menu-item-text"">Copy link</span>
  </div>

  <div class=""hr-menu-item"">
    <span class=""icon tree"">
    </span>
    <span class=""hr-menu-item-text"">Tree</span>
  </div>

  <div class=""hr-menu-item"">
    <span class=""icon code"">
    </span>
    <span class=""hr-menu-item-text"">Source</span>
  </div>

</div>

</div>

<div class=""hr-border-zone"">

                <div class=""hr-border-dots"">
                  <div class=""icon dots"">
                  </div>
                </div>
                <div class=""hr-border-rect"">
                </div>

</div>

<div class=""hr-spacer-zone"">
<div class=""hr-spacer""></div>
</div>

<div class=""hr-content-zone"">

<p>The abstract.</p>

</div>

<div class=""hr-info-zone"">
<div class=""hr-info""></div>
</div>

</div>

</div>

</section>

</div>

</div>

</body>
").
Proof. vm_compute. reflexivity. Qed.

(** test_handrails.py, [test_theorem] *)
Example test_hr_theorem :
  render_doc true (BT CManuscript [] [BT CTheorem [] [BT CParagraph [] [txt "Hello."]]])
  = Some (lit "<body>

<div class=""manuscriptwrapper"">

<div class=""manuscript"" data-nodeid=""0"">

<section class=""level-1"">

<div class=""theorem hr hr-labeled"" tabindex=0 data-nodeid=""1"">

<div class=""hr-collapse-zone"">

            <div class=""hr-collapse"">
              <div class=""icon collapse"">
              </div>
            </div>

</div>

<div class=""hr-menu-zone"">

<div class=""hr-menu"">

  <div class=""hr-menu-label"">
    <span class=""hr-menu-item-text"">Theorem 1</span>
  </div>

  <div class=""hr-menu-separator""></div>

  <div class=""hr-menu-item link disabled"">
    <span class=""icon link"">
    </span>
    <span class=""hr-menu-item-text"">Copy link</span>
  </div>

  <div class=""hr-menu-item"">
    <span class=""icon tree"">
    </span>
    <span class=""hr-menu-item-text"">Tree</span>
  </div>

  <div class=""hr-menu-item"">
    <span class=""icon code"">
    </span>
    <span class=""hr-menu-item-text"">Source</span>
  </div>

</div>

</div>

<div class=""hr-border-zone"">

                <div class=""hr-border-dots"">
                  <div class=""icon dots"">
                  </div>
                </div>
                <div class=""hr-border-rect"">
                </div>

</div>

<div class=""hr-spacer-zone"">
<div class=""hr-spacer""></div>
</div>

<div class=""hr-content-zone"">

<div class=""paragraph hr-label"">

<p><span class=""span label"">Theorem 1.</span></p>

</div>

<div class=""paragraph hr hr-offset hr-hidden"" tabindex=0 data-nodeid=""2"">

<div class=""hr-collapse-zone"">
<div class=""hr-spacer""></div>
</div>

<div class=""hr-menu-zone"">

<div class=""hr-menu"">

  <div class=""hr-menu-label"">
    <span class=""hr-menu-item-text"">Paragraph</span>
  </div>

  <div class=""hr-menu-separator""></div>

  <div class=""hr-menu-item link disabled"">
    <span class=""icon link"">
    </span>
    <span class=""hr-menu-item-text"">Copy link</span>
  </div>

  <div class=""hr-menu-item"">
    <span class=""icon tree"">
    </span>
    <span class=""hr-menu-item-text"">Tree</span>
  </div>

  <div class=""hr-menu-item"">
    <span class=""icon code"">
    </span>
    <span class=""hr-menu-item-text"">Source</span>
  </div>

</div>

</div>

<div class=""hr-border-zone"">

                <div class=""hr-border-dots"">
                  <div class=""icon dots"">
                  </div>
                </div>
                <div class=""hr-border-rect"">
                </div>

</div>

<div class=""hr-spacer-zone"">
<div class=""hr-spacer""></div>
</div>

<div class=""hr-content-zone"">

<p>Hello.</p>

</div>

<div class=""hr-info-zone"">
<div class=""hr-info""></div>
</div>

</div>

</div>

<div class=""hr-info-zone"">
<div class=""hr-info""></div>
</div>

</div>

</section>

</div>

</div>

</body>
").
Proof. vm_compute. reflexivity. Qed.

(** test_handrails.py, [test_author] *)
Example test_hr_author :
  render_doc true (BT CManuscript [(a_title, VStr (lit "Indefinite Linear Algebra of the NBM"))] [BT CAuthor [(a_name, VStr (lit "Leo Torres")); (a_email, VStr (lit "leo@leotrs.com"))] []])
  = Some (lit "<body>

<div class=""manuscriptwrapper"">

<div class=""manuscript"" data-nodeid=""0"">

<section class=""level-1"">

<div class=""heading hr"" tabindex=0>

<div class=""hr-collapse-zone"">

            <div class=""hr-collapse"">
              <div class=""icon collapse"">
              </div>
            </div>

</div>

<div class=""hr-menu-zone"">

<div class=""hr-menu"">

  <div class=""hr-menu-label"">
    <span class=""hr-menu-item-text"">Title</span>
  </div>

  <div class=""hr-menu-separator""></div>

  <div class=""hr-menu-item link"">
    <span class=""icon link"">
    </span>
    <span class=""hr-menu-item-text"">Copy link</span>
  </div>

  <div class=""hr-menu-item"">
    <span class=""icon tree"">
    </span>
    <span class=""hr-menu-item-text"">Tree</span>
  </div>

  <div class=""hr-menu-item"">
    <span class=""icon code"">
    </span>
    <span class=""hr-menu-item-text"">Source</span>
  </div>

</div>

</div>

<div class=""hr-border-zone"">

                <div class=""hr-border-dots"">
                  <div class=""icon dots"">
                  </div>
                </div>
                <div class=""hr-border-rect"">
                </div>

</div>

<div class=""hr-spacer-zone"">
<div class=""hr-spacer""></div>
</div>

<div class=""hr-content-zone"">

<h1>Indefinite Linear Algebra of the NBM</h1>

</div>

<div class=""hr-info-zone"">
<div class=""hr-info""></div>
</div>

</div>

<div class=""author hr hr-hidden"" tabindex=0 data-nodeid=""1"">

<div class=""hr-collapse-zone"">
<div class=""hr-spacer""></div>
</div>

<div class=""hr-menu-zone"">

<div class=""hr-menu"">

  <div class=""hr-menu-label"">
    <span class=""hr-menu-item-text"">Author</span>
  </div>

  <div class=""hr-menu-separator""></div>

  <div class=""hr-menu-item link disabled"">
    <span class=""icon link"">
    </span>
    <span class=""hr-menu-item-text"">Copy link</span>
  </div>

  <div class=""hr-menu-item"">
    <span class=""icon tree"">
    </span>
    <span class=""hr-menu-item-text"">Tree</span>
  </div>

  <div class=""hr-menu-item"">
    <span class=""icon code"">
    </span>
    <span class=""hr-menu-item-text"">Source</span>
  </div>

</div>

</div>

<div class=""hr-border-zone"">

                <div class=""hr-border-dots"">
                  <div class=""icon dots"">
                  </div>
                </div>
                <div class=""hr-border-rect"">
                </div>

</div>

<div class=""hr-spacer-zone"">
<div class=""hr-spacer""></div>
</div>

<div class=""hr-content-zone"">

<p>Leo Torres</p>

<p><a href=""mailto:leo@leotrs.com"">leo@leotrs.com</a></p>

</div>

<div class=""hr-info-zone"">
<div class=""hr-info""></div>
</div>

</div>

</section>

</div>

</div>

</body>
").
Proof. vm_compute. reflexivity. Qed.

(** test_handrails.py, [test_bibliography] *)
Example test_hr_bib :
  render_doc true (BT CManuscript [] [BT CParagraph [] [txt "This is a citation "; BT CPendingCite [(a_targetlabels, VStrs [lit "atiyah2018introduction"])] []; txt "."]; BT CBibliography [] [BT CBibitem [(a_kind, VStr (lit "book")); (a_label, VStr (lit "atiyah2018introduction")); (a_title, VStr (lit "Introduction to commutative algebra")); (a_author, VStr (lit "Atiyah, M.F., & MacDonald, I.G.")); (a_year, VStr (lit "2018")); (a_publisher, VStr (lit "CRC Press")); (a_doi, VStr (lit "https://doi.org/10.1201/9780429493638"))] []]])
  = Some (lit "<body>

<div class=""manuscriptwrapper"">

<div class=""manuscript"" data-nodeid=""0"">

<section class=""level-1"">

<div class=""paragraph hr hr-hidden"" tabindex=0 data-nodeid=""1"">

<div class=""hr-collapse-zone"">
<div class=""hr-spacer""></div>
</div>

<div class=""hr-menu-zone"">

<div class=""hr-menu"">

  <div class=""hr-menu-label"">
    <span class=""hr-menu-item-text"">Paragraph</span>
  </div>

  <div class=""hr-menu-separator""></div>

  <div class=""hr-menu-item link disabled"">
    <span class=""icon link"">
    </span>
    <span class=""hr-menu-item-text"">Copy link</span>
  </div>

  <div class=""hr-menu-item"">
    <span class=""icon tree"">
    </span>
    <span class=""hr-menu-item-text"">Tree</span>
  </div>

  <div class=""hr-menu-item"">
    <span class=""icon code"">
    </span>
    <span class=""hr-menu-item-text"">Source</span>
  </div>

</div>

</div>

<div class=""hr-border-zone"">

                <div class=""hr-border-dots"">
                  <div class=""icon dots"">
                  </div>
                </div>
                <div class=""hr-border-rect"">
                </div>

</div>

<div class=""hr-spacer-zone"">
<div class=""hr-spacer""></div>
</div>

<div class=""hr-content-zone"">

<p>This is a citation [<a id=""cite-0"" class=""reference cite"" href=""#atiyah2018introduction"">1</a>].</p>

</div>

<div class=""hr-info-zone"">
<div class=""hr-info""></div>
</div>

</div>

<section class=""level-2"">

<div class=""heading hr"" tabindex=0>

<div class=""hr-collapse-zone"">

            <div class=""hr-collapse"">
              <div class=""icon collapse"">
              </div>
            </div>

</div>

<div class=""hr-menu-zone"">

<div class=""hr-menu"">

  <div class=""hr-menu-label"">
    <span class=""hr-menu-item-text"">Bibliography</span>
  </div>

  <div class=""hr-menu-separator""></div>

  <div class=""hr-menu-item link disabled"">
    <span class=""icon link"">
    </span>
    <span class=""hr-menu-item-text"">Copy link</span>
  </div>

  <div class=""hr-menu-item"">
    <span class=""icon tree"">
    </span>
    <span class=""hr-menu-item-text"">Tree</span>
  </div>

  <div class=""hr-menu-item"">
    <span class=""icon code"">
    </span>
    <span class=""hr-menu-item-text"">Source</span>
  </div>

</div>

</div>

<div class=""hr-border-zone"">

                <div class=""hr-border-dots"">
                  <div class=""icon dots"">
                  </div>
                </div>
                <div class=""hr-border-rect"">
                </div>

</div>

<div class=""hr-spacer-zone"">
<div class=""hr-spacer""></div>
</div>

<div class=""hr-content-zone"">

<h2>References</h2>

</div>

<div class=""hr-info-zone"">
<div class=""hr-info""></div>
</div>

</div>

<div class=""bibliography"" data-nodeid=""5"">

<div id=""atiyah2018introduction"" class=""bibitem"" data-nodeid=""6"">

<div class=""hr-hidden hr"" tabindex=0>

<div class=""hr-collapse-zone"">
<div class=""hr-spacer""></div>
</div>

<div class=""hr-menu-zone"">

<div class=""hr-menu"">

  <div class=""hr-menu-item"">
    <span class=""icon tree"">
    </span>
    <span class=""hr-menu-item-text"">Tree</span>
  </div>

  <div class=""hr-menu-item"">
    <span class=""icon code"">
    </span>
    <span class=""hr-menu-item-text"">Source</span>
  </div>

</div>

</div>

<div class=""hr-border-zone"">

                <div class=""hr-border-dots"">
                  <div class=""icon dots"">
                  </div>
                </div>
                <div class=""hr-border-rect"">
                </div>

</div>

<div class=""hr-spacer-zone"">
<div class=""hr-spacer""></div>
</div>

<div class=""hr-content-zone"">
<p>1. Atiyah, M.F., & MacDonald, I.G. ""Introduction to commutative algebra"". CRC Press. 2018. <br />[<a class=""reference backlink"" href=""#cite-0"">↖1</a>]</p>
</div>

<div class=""hr-info-zone"">
<div class=""hr-info"">
<a id=""atiyah2018introduction-doi"" class=""bibitem-doi"" href=""https://doi.org/https://doi.org/10.1201/9780429493638"" target=""_blank"">
<div class=""icon ext"">
                </div></a>
</div>
</div>

</div>

</div>

</div>

</section>

</section>

</div>

</div>

</body>
").
Proof. vm_compute. reflexivity. Qed.

(** test_handrails.py, [test_inline_math_followed_by_dot] *)
Example test_hr_dot :
  render_doc true (BT CManuscript [(a_title, VStr (lit "title"))] [BT CParagraph [] [txt "one "; BT CMath [] [BT CText [(a_text, VStr (lit "2+2=4")); (a_asis, VBool true)] []]; txt "."]; BT CParagraph [] [txt "two "; BT CMath [] [BT CText [(a_text, VStr (lit "2+2=4")); (a_asis, VBool true)] []]; txt " baz."]; BT CParagraph [] [txt "three "; BT CMath [] [BT CText [(a_text, VStr (lit "2+2=4")); (a_asis, VBool true)] []]; txt ". Another sentence."]])
  = Some (lit "<body>

<div class=""manuscriptwrapper"">

<div class=""manuscript"" data-nodeid=""0"">

<section class=""level-1"">

<div class=""heading hr"" tabindex=0>

<div class=""hr-collapse-zone"">

            <div class=""hr-collapse"">
              <div class=""icon collapse"">
              </div>
            </div>

</div>

<div class=""hr-menu-zone"">

<div class=""hr-menu"">

  <div class=""hr-menu-label"">
    <span class=""hr-menu-item-text"">Title</span>
  </div>

  <div class=""hr-menu-separator""></div>

  <div class=""hr-menu-item link"">
    <span class=""icon link"">
    </span>
    <span class=""hr-menu-item-text"">Copy link</span>
  </div>

  <div class=""hr-menu-item"">
    <span class=""icon tree"">
    </span>
    <span class=""hr-menu-item-text"">Tree</span>
  </div>

  <div class=""hr-menu-item"">
    <span class=""icon code"">
    </span>
    <span class=""hr-menu-item-text"">Source</span>
  </div>

</div>

</div>

<div class=""hr-border-zone"">

                <div class=""hr-border-dots"">
                  <div class=""icon dots"">
                  </div>
                </div>
                <div class=""hr-border-rect"">
                </div>

</div>

<div class=""hr-spacer-zone"">
<div class=""hr-spacer""></div>
</div>

<div class=""hr-content-zone"">

<h1>title</h1>

</div>

<div class=""hr-info-zone"">
<div class=""hr-info""></div>
</div>

</div>

<div class=""paragraph hr hr-hidden"" tabindex=0 data-nodeid=""1"">

<div class=""hr-collapse-zone"">
<div class=""hr-spacer""></div>
</div>

<div class=""hr-menu-zone"">

<div class=""hr-menu"">

  <div class=""hr-menu-label"">
    <span class=""hr-menu-item-text"">Paragraph</span>
  </div>

  <div class=""hr-menu-separator""></div>

  <div class=""hr-menu-item link disabled"">
    <span class=""icon link"">
    </span>
    <span class=""hr-menu-item-text"">Copy link</span>
  </div>

  <div class=""hr-menu-item"">
    <span class=""icon tree"">
    </span>
    <span class=""hr-menu-item-text"">Tree</span>
  </div>

  <div class=""hr-menu-item"">
    <span class=""icon code"">
    </span>
    <span class=""hr-menu-item-text"">Source</span>
  </div>

</div>

</div>

<div class=""hr-border-zone"">

                <div class=""hr-border-dots"">
                  <div class=""icon dots"">
                  </div>
                </div>
                <div class=""hr-border-rect"">
                </div>

</div>

<div class=""hr-spacer-zone"">
<div class=""hr-spacer""></div>
</div>

<div class=""hr-content-zone"">

<p>one <span class=""inline-math-wrapper"">
<span class=""math"" data-nodeid=""3"">\(2+2=4\)</span><span>.</span></span></p>

</div>

<div class=""hr-info-zone"">
<div class=""hr-info""></div>
</div>

</div>

<div class=""paragraph hr hr-hidden"" tabindex=0 data-nodeid=""6"">

<div class=""hr-collapse-zone"">
<div class=""hr-spacer""></div>
</div>

<div class=""hr-menu-zone"">

<div class=""hr-menu"">

  <div class=""hr-menu-label"">
    <span class=""hr-menu-item-text"">Paragraph</span>
  </div>

  <div class=""hr-menu-separator""></div>

  <div class=""hr-menu-item link disabled"">
    <span class=""icon link"">
    </span>
    <span class=""hr-menu-item-text"">Copy link</span>
  </div>

  <div class=""hr-menu-item"">
    <span class=""icon tree"">
    </span>
    <span class=""hr-menu-item-text"">Tree</span>
  </div>

  <div class=""hr-menu-item"">
    <span class=""icon code"">
    </span>
    <span class=""hr-menu-item-text"">Source</span>
  </div>

</div>

</div>

<div class=""hr-border-zone"">

                <div class=""hr-border-dots"">
                  <div class=""icon dots"">
                  </div>
                </div>
                <div class=""hr-border-rect"">
                </div>

</div>

<div class=""hr-spacer-zone"">
<div class=""hr-spacer""></div>
</div>

<div class=""hr-content-zone"">

<p>two <span class=""math"" data-nodeid=""8"">\(2+2=4\)</span> baz.</p>

</div>

<div class=""hr-info-zone"">
<div class=""hr-info""></div>
</div>

</div>

<div class=""paragraph hr hr-hidden"" tabindex=0 data-nodeid=""11"">

<div class=""hr-collapse-zone"">
<div class=""hr-spacer""></div>
</div>

<div class=""hr-menu-zone"">

<div class=""hr-menu"">

  <div class=""hr-menu-label"">
    <span class=""hr-menu-item-text"">Paragraph</span>
  </div>

  <div class=""hr-menu-separator""></div>

  <div class=""hr-menu-item link disabled"">
    <span class=""icon link"">
    </span>
    <span class=""hr-menu-item-text"">Copy link</span>
  </div>

  <div class=""hr-menu-item"">
    <span class=""icon tree"">
    </span>
    <span class=""hr-menu-item-text"">Tree</span>
  </div>

  <div class=""hr-menu-item"">
    <span class=""icon code"">
    </span>
    <span class=""hr-menu-item-text"">Source</span>
  </div>

</div>

</div>

<div class=""hr-border-zone"">

                <div class=""hr-border-dots"">
                  <div class=""icon dots"">
                  </div>
                </div>
                <div class=""hr-border-rect"">
                </div>

</div>

<div class=""hr-spacer-zone"">
<div class=""hr-spacer""></div>
</div>

<div class=""hr-content-zone"">

<p>three <span class=""inline-math-wrapper"">
<span class=""math"" data-nodeid=""13"">\(2+2=4\)</span><span>.</span></span> Another sentence.</p>

</div>

<div class=""hr-info-zone"">
<div class=""hr-info""></div>
</div>

</div>

</section>

</div>

</div>

</body>
").
Proof. vm_compute. reflexivity. Qed.

(** test_handrails.py, [test_mathblock_nonum] *)
Example test_hr_mb_nonum :
  render_doc true (BT CManuscript [] [BT CParagraph [] [txt "This one has a number "; BT CMathBlock [] [BT CText [(a_text, VStr (lit "2+2=4")); (a_asis, VBool true)] []]]; BT CParagraph [] [txt "And this one does not "; BT CMathBlock [(a_nonum, VBool true)] [BT CText [(a_text, VStr (lit "2+2=4")); (a_asis, VBool true)] []]]])
  = Some (lit "<body>

<div class=""manuscriptwrapper"">

<div class=""manuscript"" data-nodeid=""0"">

<section class=""level-1"">

<div class=""paragraph hr hr-hidden"" tabindex=0 data-nodeid=""1"">

<div class=""hr-collapse-zone"">
<div class=""hr-spacer""></div>
</div>

<div class=""hr-menu-zone"">

<div class=""hr-menu"">

  <div class=""hr-menu-label"">
    <span class=""hr-menu-item-text"">Paragraph</span>
  </div>

  <div class=""hr-menu-separator""></div>

  <div class=""hr-menu-item link disabled"">
    <span class=""icon link"">
    </span>
    <span class=""hr-menu-item-text"">Copy link</span>
  </div>

  <div class=""hr-menu-item"">
    <span class=""icon tree"">
    </span>
    <span class=""hr-menu-item-text"">Tree</span>
  </div>

  <div class=""hr-menu-item"">
    <span class=""icon code"">
    </span>
    <span class=""hr-menu-item-text"">Source</span>
  </div>

</div>

</div>

<div class=""hr-border-zone"">

                <div class=""hr-border-dots"">
                  <div class=""icon dots"">
                  </div>
                </div>
                <div class=""hr-border-rect"">
                </div>

</div>

<div class=""hr-spacer-zone"">
<div class=""hr-spacer""></div>
</div>

<div class=""hr-content-zone"">

<p>This one has a number </p>
<div class=""mathblock hr hr-hidden hr-offset"" tabindex=0 data-nodeid=""3"">

<div class=""hr-collapse-zone"">
<div class=""hr-spacer""></div>
</div>

<div class=""hr-menu-zone"">

<div class=""hr-menu"">

  <div class=""hr-menu-label"">
    <span class=""hr-menu-item-text"">Equation (1)</span>
  </div>

  <div class=""hr-menu-separator""></div>

  <div class=""hr-menu-item link disabled"">
    <span class=""icon link"">
    </span>
    <span class=""hr-menu-item-text"">Copy link</span>
  </div>

  <div class=""hr-menu-item"">
    <span class=""icon tree"">
    </span>
    <span class=""hr-menu-item-text"">Tree</span>
  </div>

  <div class=""hr-menu-item"">
    <span class=""icon code"">
    </span>
    <span class=""hr-menu-item-text"">Source</span>
  </div>

</div>

</div>

<div class=""hr-border-zone"">

                <div class=""hr-border-dots"">
                  <div class=""icon dots"">
                  </div>
                </div>
                <div class=""hr-border-rect"">
                </div>

</div>

<div class=""hr-spacer-zone"">
<div class=""hr-spacer""></div>
</div>

<div class=""hr-content-zone"">
$$
2+2=4
$$
</div>

<div class=""hr-info-zone"">
<div class=""hr-info""><div class=""eqn-number""><p>(1)</p></div></div>
</div>

</div>

</div>

<div class=""hr-info-zone"">
<div class=""hr-info""></div>
</div>

</div>

<div class=""paragraph hr hr-hidden"" tabindex=0 data-nodeid=""5"">

<div class=""hr-collapse-zone"">
<div class=""hr-spacer""></div>
</div>

<div class=""hr-menu-zone"">

<div class=""hr-menu"">

  <div class=""hr-menu-label"">
    <span class=""hr-menu-item-text"">Paragraph</span>
  </div>

  <div class=""hr-menu-separator""></div>

  <div class=""hr-menu-item link disabled"">
    <span class=""icon link"">
    </span>
    <span class=""hr-menu-item-text"">Copy link</span>
  </div>

  <div class=""hr-menu-item"">
    <span class=""icon tree"">
    </span>
    <span class=""hr-menu-item-text"">Tree</span>
  </div>

  <div class=""hr-menu-item"">
    <span class=""icon code"">
    </span>
    <span class=""hr-menu-item-text"">Source</span>
  </div>

</div>

</div>

<div class=""hr-border-zone"">

                <div class=""hr-border-dots"">
                  <div class=""icon dots"">
                  </div>
                </div>
                <div class=""hr-border-rect"">
                </div>

</div>

<div class=""hr-spacer-zone"">
<div class=""hr-spacer""></div>
</div>

<div class=""hr-content-zone"">

<p>And this one does not </p>
<div class=""mathblock hr hr-hidden hr-offset"" tabindex=0 data-nodeid=""7"">

<div class=""hr-collapse-zone"">
<div class=""hr-spacer""></div>
</div>

<div class=""hr-menu-zone"">

<div class=""hr-menu"">

  <div class=""hr-menu-label"">
    <span class=""hr-menu-item-text"">Equation</span>
  </div>

  <div class=""hr-menu-separator""></div>

  <div class=""hr-menu-item link disabled"">
    <span class=""icon link"">
    </span>
    <span class=""hr-menu-item-text"">Copy link</span>
  </div>

  <div class=""hr-menu-item"">
    <span class=""icon tree"">
    </span>
    <span class=""hr-menu-item-text"">Tree</span>
  </div>

  <div class=""hr-menu-item"">
    <span class=""icon code"">
    </span>
    <span class=""hr-menu-item-text"">Source</span>
  </div>

</div>

</div>

<div class=""hr-border-zone"">

                <div class=""hr-border-dots"">
                  <div class=""icon dots"">
                  </div>
                </div>
                <div class=""hr-border-rect"">
                </div>

</div>

<div class=""hr-spacer-zone"">
<div class=""hr-spacer""></div>
</div>

<div class=""hr-content-zone"">
$$
2+2=4
$$
</div>

<div class=""hr-info-zone"">
<div class=""hr-info""></div>
</div>

</div>

</div>

<div class=""hr-info-zone"">
<div class=""hr-info""></div>
</div>

</div>

</section>

</div>

</div>

</body>
").
Proof. vm_compute. reflexivity. Qed.

(** test_handrails.py, [test_toc_no_labels] *)
Example test_hr_toc :
  render_doc true (BT CManuscript [(a_title, VStr (lit "Foo"))] [BT CAbstract [] [BT CParagraph [] [txt "Abs."]]; BT CContents [] []; BT CSection [(a_title, VStr (lit "Section"))] []; BT CSection [(a_title, VStr (lit "Section"))] [BT CSubsection [(a_title, VStr (lit "Sub-section"))] []]])
  = Some (lit "<body>

<div class=""manuscriptwrapper"">

<div class=""manuscript"" data-nodeid=""0"">
<div class=""float-minimap-wrapper"">
<div class=""minimap"">

        <svg xmlns=""http://www.w3.org/2000/svg"" viewBox=""0 0 32 104"" fill=""#3C4952"" preserveAspectRatio=""xMinYMid meet"" stroke-width=""0"">
          <defs>

            <linearGradient id=""purple-green-scroll"" x1=""0%"" x2=""0%"" y1=""0%"" y2=""100%"" gradientUnits=""userSpaceOnUse"">
              <stop offset=""0%"" stop-color=""#AD71F2"" />
              <stop id=""stop-follow-scroll-1"" offset=""100%"" stop-color=""#1FB5A2"" />
              <stop id=""stop-follow-scroll-2"" offset=""100%"" stop-color=""#DAE1E5"" />
              <stop offset=""100%"" stop-color=""#DAE1E5"" />
            </linearGradient>

            <mask id=""gradient-mask"">
              <rect width=""100%"" height=""100%"" fill=""url(#purple-green-scroll)"" />
            </mask>

          </defs>

          <g fill=""url(#purple-green-scroll)"">
            <rect x=""14"" y=""24"" width=""4"" height=""56"" />
    <a href=""#"" class=""reference"" tabindex=""-1""><circle id=""mm-"" cx=""16"" cy=""20"" r=""8"" data-pos=""20"" />
    <circle cx=""16"" cy=""20"" r=""4"" fill=""#FCFEFF"" data-pos=""20"" /></a>
    <a href=""#"" class=""reference"" tabindex=""-1""><circle id=""mm-"" cx=""16"" cy=""52"" r=""8"" data-pos=""52"" />
    <circle cx=""16"" cy=""52"" r=""4"" fill=""#FCFEFF"" data-pos=""52"" /></a>
    <a href=""#"" class=""reference"" tabindex=""-1""><circle id=""mm-"" cx=""16"" cy=""84"" r=""6"" data-pos=""84"" />
    <circle cx=""16"" cy=""84"" r=""2"" fill=""#FCFEFF"" data-pos=""84"" /></a></g>
</svg>
</div>
</div>
<section class=""level-1"">

<div class=""heading hr"" tabindex=0>

<div class=""hr-collapse-zone"">

            <div class=""hr-collapse"">
              <div class=""icon collapse"">
              </div>
            </div>

</div>

<div class=""hr-menu-zone"">

<div class=""hr-menu"">

  <div class=""hr-menu-label"">
    <span class=""hr-menu-item-text"">Title</span>
  </div>

  <div class=""hr-menu-separator""></div>

  <div class=""hr-menu-item link"">
    <span class=""icon link"">
    </span>
    <span class=""hr-menu-item-text"">Copy link</span>
  </div>

  <div class=""hr-menu-item"">
    <span class=""icon tree"">
    </span>
    <span class=""hr-menu-item-text"">Tree</span>
  </div>

  <div class=""hr-menu-item"">
    <span class=""icon code"">
    </span>
    <span class=""hr-menu-item-text"">Source</span>
  </div>

</div>

</div>

<div class=""hr-border-zone"">

                <div class=""hr-border-dots"">
                  <div class=""icon dots"">
                  </div>
                </div>
                <div class=""hr-border-rect"">
                </div>

</div>

<div class=""hr-spacer-zone"">
<div class=""hr-spacer""></div>
</div>

<div class=""hr-content-zone"">

<h1>Foo</h1>

</div>

<div class=""hr-info-zone"">
<div class=""hr-info""></div>
</div>

</div>

<div class=""abstract"" data-nodeid=""1"">

<div class=""heading hr"" tabindex=0>

<div class=""hr-collapse-zone"">

            <div class=""hr-collapse"">
              <div class=""icon collapse"">
              </div>
            </div>

</div>

<div class=""hr-menu-zone"">

<div class=""hr-menu"">

  <div class=""hr-menu-label"">
    <span class=""hr-menu-item-text"">Abstract</span>
  </div>

  <div class=""hr-menu-separator""></div>

  <div class=""hr-menu-item link disabled"">
    <span class=""icon link"">
    </span>
    <span class=""hr-menu-item-text"">Copy link</span>
  </div>

  <div class=""hr-menu-item"">
    <span class=""icon tree"">
    </span>
    <span class=""hr-menu-item-text"">Tree</span>
  </div>

  <div class=""hr-menu-item"">
    <span class=""icon code"">
    </span>
    <span class=""hr-menu-item-text"">Source</span>
  </div>

</div>

</div>

<div class=""hr-border-zone"">

                <div class=""hr-border-dots"">
                  <div class=""icon dots"">
                  </div>
                </div>
                <div class=""hr-border-rect"">
                </div>

</div>

<div class=""hr-spacer-zone"">
<div class=""hr-spacer""></div>
</div>

<div class=""hr-content-zone"">

<h3>Abstract</h3>

</div>

<div class=""hr-info-zone"">
<div class=""hr-info""></div>
</div>

</div>

<div class=""paragraph hr hr-hidden"" tabindex=0 data-nodeid=""2"">

<div class=""hr-collapse-zone"">
<div class=""hr-spacer""></div>
</div>

<div class=""hr-menu-zone"">

<div class=""hr-menu"">

  <div class=""hr-menu-label"">
    <span class=""hr-menu-item-text"">Paragraph</span>
  </div>

  <div class=""hr-menu-separator""></div>

  <div class=""hr-menu-item link disabled"">
    <span class=""icon link"">
    </span>
    <span class=""hr-menu-item-text"">Copy link</span>
  </div>

  <div class=""hr-menu-item"">
    <span class=""icon tree"">
    </span>
    <span class=""hr-menu-item-text"">Tree</span>
  </div>

  <div class=""hr-menu-item"">
    <span class=""icon code"">
    </span>
    <span class=""hr-menu-item-text"">Source</span>
  </div>

</div>

</div>

<div class=""hr-border-zone"">

                <div class=""hr-border-dots"">
                  <div class=""icon dots"">
                  </div>
                </div>
                <div class=""hr-border-rect"">
                </div>

</div>

<div class=""hr-spacer-zone"">
<div class=""hr-spacer""></div>
</div>

<div class=""hr-content-zone"">

<p>Abs.</p>

</div>

<div class=""hr-info-zone"">
<div class=""hr-info""></div>
</div>

</div>

</div>

<div class=""toc"">

<div class=""heading hr"" tabindex=0>

<div class=""hr-collapse-zone"">

            <div class=""hr-collapse"">
              <div class=""icon collapse"">
              </div>
            </div>

</div>

<div class=""hr-menu-zone"">

<div class=""hr-menu"">

  <div class=""hr-menu-label"">
    <span class=""hr-menu-item-text"">Contents</span>
  </div>

  <div class=""hr-menu-separator""></div>

  <div class=""hr-menu-item link disabled"">
    <span class=""icon link"">
    </span>
    <span class=""hr-menu-item-text"">Copy link</span>
  </div>

  <div class=""hr-menu-item"">
    <span class=""icon tree"">
    </span>
    <span class=""hr-menu-item-text"">Tree</span>
  </div>

  <div class=""hr-menu-item"">
    <span class=""icon code"">
    </span>
    <span class=""hr-menu-item-text"">Source</span>
  </div>

</div>

</div>

<div class=""hr-border-zone"">

                <div class=""hr-border-dots"">
                  <div class=""icon dots"">
                  </div>
                </div>
                <div class=""hr-border-rect"">
                </div>

</div>

<div class=""hr-spacer-zone"">
<div class=""hr-spacer""></div>
</div>

<div class=""hr-content-zone"">

<h3>Table of Contents</h3>

</div>

<div class=""hr-info-zone"">
<div class=""hr-info""></div>
</div>

</div>

<div class=""toc-wrapper"">

<div class=""minimap"">

        <svg xmlns=""http://www.w3.org/2000/svg"" viewBox=""0 0 32 104"" fill=""#3C4952"" preserveAspectRatio=""xMinYMid meet"" stroke-width=""0"">
          <defs>

            <linearGradient id=""purple-green-mouse"" x1=""0%"" x2=""0%"" y1=""0%"" y2=""100%"" gradientUnits=""userSpaceOnUse"">
              <stop offset=""0%"" stop-color=""#AD71F2"" />
              <stop id=""stop-follow-mouse-1"" offset=""100%"" stop-color=""#1FB5A2"" />
              <stop id=""stop-follow-mouse-2"" offset=""100%"" stop-color=""#DAE1E5"" />
              <stop offset=""100%"" stop-color=""#DAE1E5"" />
            </linearGradient>

            <mask id=""gradient-mask"">
              <rect width=""100%"" height=""100%"" fill=""url(#purple-green-mouse)"" />
            </mask>

          </defs>

          <g fill=""url(#purple-green-mouse)"">
            <rect x=""14"" y=""24"" width=""4"" height=""56"" />
    <circle cx=""16"" cy=""20"" r=""8"" data-pos=""20"" />
    <circle cx=""16"" cy=""20"" r=""4"" fill=""#FCFEFF"" data-pos=""20"" />
    <circle cx=""16"" cy=""52"" r=""8"" data-pos=""52"" />
    <circle cx=""16"" cy=""52"" r=""4"" fill=""#FCFEFF"" data-pos=""52"" />
    <circle cx=""16"" cy=""84"" r=""6"" data-pos=""84"" />
    <circle cx=""16"" cy=""84"" r=""2"" fill=""#FCFEFF"" data-pos=""84"" /></g>
</svg>
</div>

<ul class=""contents"" data-nodeid=""4"">

<li class=""item"" data-nodeid=""5"">
<a class=""reference"" href=""#"">1. Section</a>
</li>

<li class=""item"" data-nodeid=""7"">
<a class=""reference"" href=""#"">2. Section</a>
<ul class=""itemize"" data-nodeid=""9"">

<li class=""item"" data-nodeid=""10"">
<a class=""reference"" href=""#"">2.1. Sub-section</a>
</li>

</ul>

</li>

</ul>

</div>

</div>

<section class=""section level-2"" data-nodeid=""12"">

<div class=""heading hr"" tabindex=0>

<div class=""hr-collapse-zone"">

            <div class=""hr-collapse"">
              <div class=""icon collapse"">
              </div>
            </div>

</div>

<div class=""hr-menu-zone"">

<div class=""hr-menu"">

  <div class=""hr-menu-label"">
    <span class=""hr-menu-item-text"">Section 1</span>
  </div>

  <div class=""hr-menu-separator""></div>

  <div class=""hr-menu-item link disabled"">
    <span class=""icon link"">
    </span>
    <span class=""hr-menu-item-text"">Copy link</span>
  </div>

  <div class=""hr-menu-item"">
    <span class=""icon tree"">
    </span>
    <span class=""hr-menu-item-text"">Tree</span>
  </div>

  <div class=""hr-menu-item"">
    <span class=""icon code"">
    </span>
    <span class=""hr-menu-item-text"">Source</span>
  </div>

</div>

</div>

<div class=""hr-border-zone"">

                <div class=""hr-border-dots"">
                  <div class=""icon dots"">
                  </div>
                </div>
                <div class=""hr-border-rect"">
                </div>

</div>

<div class=""hr-spacer-zone"">
<div class=""hr-spacer""></div>
</div>

<div class=""hr-content-zone"">

<h2>1. Section</h2>

</div>

<div class=""hr-info-zone"">
<div class=""hr-info""></div>
</div>

</div>

</section>

<section class=""section level-2"" data-nodeid=""13"">

<div class=""heading hr"" tabindex=0>

<div class=""hr-collapse-zone"">

            <div class=""hr-collapse"">
              <div class=""icon collapse"">
              </div>
            </div>

</div>

<div class=""hr-menu-zone"">

<div class=""hr-menu"">

  <div class=""hr-menu-label"">
    <span class=""hr-menu-item-text"">Section 2</span>
  </div>

  <div class=""hr-menu-separator""></div>

  <div class=""hr-menu-item link disabled"">
    <span class=""icon link"">
    </span>
    <span class=""hr-menu-item-text"">Copy link</span>
  </div>

  <div class=""hr-menu-item"">
    <span class=""icon tree"">
    </span>
    <span class=""hr-menu-item-text"">Tree</span>
  </div>

  <div class=""hr-menu-item"">
    <span class=""icon code"">
    </span>
    <span class=""hr-menu-item-text"">Source</span>
  </div>

</div>

</div>

<div class=""hr-border-zone"">

                <div class=""hr-border-dots"">
                  <div class=""icon dots"">
                  </div>
                </div>
                <div class=""hr-border-rect"">
                </div>

</div>

<div class=""hr-spacer-zone"">
<div class=""hr-spacer""></div>
</div>

<div class=""hr-content-zone"">

<h2>2. Section</h2>

</div>

<div class=""hr-info-zone"">
<div class=""hr-info""></div>
</div>

</div>

<section class=""subsection level-3"" data-nodeid=""14"">

<div class=""heading hr"" tabindex=0>

<div class=""hr-collapse-zone"">

            <div class=""hr-collapse"">
              <div class=""icon collapse"">
              </div>
            </div>

</div>

<div class=""hr-menu-zone"">

<div class=""hr-menu"">

  <div class=""hr-menu-label"">
    <span class=""hr-menu-item-text"">Section 2.1</span>
  </div>

  <div class=""hr-menu-separator""></div>

  <div class=""hr-menu-item link disabled"">
    <span class=""icon link"">
    </span>
    <span class=""hr-menu-item-text"">Copy link</span>
  </div>

  <div class=""hr-menu-item"">
    <span class=""icon tree"">
    </span>
    <span class=""hr-menu-item-text"">Tree</span>
  </div>

  <div class=""hr-menu-item"">
    <span class=""icon code"">
    </span>
    <span class=""hr-menu-item-text"">Source</span>
  </div>

</div>

</div>

<div class=""hr-border-zone"">

                <div class=""hr-border-dots"">
                  <div class=""icon dots"">
                  </div>
                </div>
                <div class=""hr-border-rect"">
                </div>

</div>

<div class=""hr-spacer-zone"">
<div class=""hr-spacer""></div>
</div>

<div class=""hr-content-zone"">

<h3>2.1. Sub-section</h3>

</div>

<div class=""hr-info-zone"">
<div class=""hr-info""></div>
</div>

</div>

</section>

</section>

</section>

</div>

</div>

</body>
").
Proof. vm_compute. reflexivity. Qed.

(** test_handrails.py, [test_toc_with_labels] *)
Example test_hr_toc_labels :
  render_doc true (BT CManuscript [(a_title, VStr (lit "Foo"))] [BT CAbstract [] [BT CParagraph [] [txt "Abs."]]; BT CContents [] []; BT CSection [(a_title, VStr (lit "Section")); (a_label, VStr (lit "sec-1"))] []; BT CSection [(a_title, VStr (lit "Section")); (a_label, VStr (lit "sec-2"))] [BT CSubsection [(a_title, VStr (lit "Sub-section")); (a_label, VStr (lit "sub-sec"))] []]])
  = Some (lit "<body>

<div class=""manuscriptwrapper"">

<div class=""manuscript"" data-nodeid=""0"">
<div class=""float-minimap-wrapper"">
<div class=""minimap"">

        <svg xmlns=""http://www.w3.org/2000/svg"" viewBox=""0 0 32 104"" fill=""#3C4952"" preserveAspectRatio=""xMinYMid meet"" stroke-width=""0"">
          <defs>

            <linearGradient id=""purple-green-scroll"" x1=""0%"" x2=""0%"" y1=""0%"" y2=""100%"" gradientUnits=""userSpaceOnUse"">
              <stop offset=""0%"" stop-color=""#AD71F2"" />
              <stop id=""stop-follow-scroll-1"" offset=""100%"" stop-color=""#1FB5A2"" />
              <stop id=""stop-follow-scroll-2"" offset=""100%"" stop-color=""#DAE1E5"" />
              <stop offset=""100%"" stop-color=""#DAE1E5"" />
            </linearGradient>

            <mask id=""gradient-mask"">
              <rect width=""100%"" height=""100%"" fill=""url(#purple-green-scroll)"" />
            </mask>

          </defs>

          <g fill=""url(#purple-green-scroll)"">
            <rect x=""14"" y=""24"" width=""4"" height=""56"" />
    <a href=""#sec-1"" class=""reference"" tabindex=""-1""><circle id=""mm-sec-1"" cx=""16"" cy=""20"" r=""8"" data-pos=""20"" />
    <circle cx=""16"" cy=""20"" r=""4"" fill=""#FCFEFF"" data-pos=""20"" /></a>
    <a href=""#sec-2"" class=""reference"" tabindex=""-1""><circle id=""mm-sec-2"" cx=""16"" cy=""52"" r=""8"" data-pos=""52"" />
    <circle cx=""16"" cy=""52"" r=""4"" fill=""#FCFEFF"" data-pos=""52"" /></a>
    <a href=""#sub-sec"" class=""reference"" tabindex=""-1""><circle id=""mm-sub-sec"" cx=""16"" cy=""84"" r=""6"" data-pos=""84"" />
    <circle cx=""16"" cy=""84"" r=""2"" fill=""#FCFEFF"" data-pos=""84"" /></a></g>
</svg>
</div>
</div>
<section class=""level-1"">

<div class=""heading hr"" tabindex=0>

<div class=""hr-collapse-zone"">

            <div class=""hr-collapse"">
              <div class=""icon collapse"">
              </div>
            </div>

</div>

<div class=""hr-menu-zone"">

<div class=""hr-menu"">

  <div class=""hr-menu-label"">
    <span class=""hr-menu-item-text"">Title</span>
  </div>

  <div class=""hr-menu-separator""></div>

  <div class=""hr-menu-item link"">
    <span class=""icon link"">
    </span>
    <span class=""hr-menu-item-text"">Copy link</span>
  </div>

  <div class=""hr-menu-item"">
    <span class=""icon tree"">
    </span>
    <span class=""hr-menu-item-text"">Tree</span>
  </div>

  <div class=""hr-menu-item"">
    <span class=""icon code"">
    </span>
    <span class=""hr-menu-item-text"">Source</span>
  </div>

</div>

</div>

<div class=""hr-border-zone"">

                <div class=""hr-border-dots"">
                  <div class=""icon dots"">
                  </div>
                </div>
                <div class=""hr-border-rect"">
                </div>

</div>

<div class=""hr-spacer-zone"">
<div class=""hr-spacer""></div>
</div>

<div class=""hr-content-zone"">

<h1>Foo</h1>

</div>

<div class=""hr-info-zone"">
<div class=""hr-info""></div>
</div>

</div>

<div class=""abstract"" data-nodeid=""1"">

<div class=""heading hr"" tabindex=0>

<div class=""hr-collapse-zone"">

            <div class=""hr-collapse"">
              <div class=""icon collapse"">
              </div>
            </div>

</div>

<div class=""hr-menu-zone"">

<div class=""hr-menu"">

  <div class=""hr-menu-label"">
    <span class=""hr-menu-item-text"">Abstract</span>
  </div>

  <div class=""hr-menu-separator""></div>

  <div class=""hr-menu-item link disabled"">
    <span class=""icon link"">
    </span>
    <span class=""hr-menu-item-text"">Copy link</span>
  </div>

  <div class=""hr-menu-item"">
    <span class=""icon tree"">
    </span>
    <span class=""hr-menu-item-text"">Tree</span>
  </div>

  <div class=""hr-menu-item"">
    <span class=""icon code"">
    </span>
    <span class=""hr-menu-item-text"">Source</span>
  </div>

</div>

</div>

<div class=""hr-border-zone"">

                <div class=""hr-border-dots"">
                  <div class=""icon dots"">
                  </div>
                </div>
                <div class=""hr-border-rect"">
                </div>

</div>

<div class=""hr-spacer-zone"">
<div class=""hr-spacer""></div>
</div>

<div class=""hr-content-zone"">

<h3>Abstract</h3>

</div>

<div class=""hr-info-zone"">
<div class=""hr-info""></div>
</div>

</div>

<div class=""paragraph hr hr-hidden"" tabindex=0 data-nodeid=""2"">

<div class=""hr-collapse-zone"">
<div class=""hr-spacer""></div>
</div>

<div class=""hr-menu-zone"">

<div class=""hr-menu"">

  <div class=""hr-menu-label"">
    <span class=""hr-menu-item-text"">Paragraph</span>
  </div>

  <div class=""hr-menu-separator""></div>

  <div class=""hr-menu-item link disabled"">
    <span class=""icon link"">
    </span>
    <span class=""hr-menu-item-text"">Copy link</span>
  </div>

  <div class=""hr-menu-item"">
    <span class=""icon tree"">
    </span>
    <span class=""hr-menu-item-text"">Tree</span>
  </div>

  <div class=""hr-menu-item"">
    <span class=""icon code"">
    </span>
    <span class=""hr-menu-item-text"">Source</span>
  </div>

</div>

</div>

<div class=""hr-border-zone"">

                <div class=""hr-border-dots"">
                  <div class=""icon dots"">
                  </div>
                </div>
                <div class=""hr-border-rect"">
                </div>

</div>

<div class=""hr-spacer-zone"">
<div class=""hr-spacer""></div>
</div>

<div class=""hr-content-zone"">

<p>Abs.</p>

</div>

<div class=""hr-info-zone"">
<div class=""hr-info""></div>
</div>

</div>

</div>

<div class=""toc"">

<div class=""heading hr"" tabindex=0>

<div class=""hr-collapse-zone"">

            <div class=""hr-collapse"">
              <div class=""icon collapse"">
              </div>
            </div>

</div>

<div class=""hr-menu-zone"">

<div class=""hr-menu"">

  <div class=""hr-menu-label"">
    <span class=""hr-menu-item-text"">Contents</span>
  </div>

  <div class=""hr-menu-separator""></div>

  <div class=""hr-menu-item link disabled"">
    <span class=""icon link"">
    </span>
    <span class=""hr-menu-item-text"">Copy link</span>
  </div>

  <div class=""hr-menu-item"">
    <span class=""icon tree"">
    </span>
    <span class=""hr-menu-item-text"">Tree</span>
  </div>

  <div class=""hr-menu-item"">
    <span class=""icon code"">
    </span>
    <span class=""hr-menu-item-text"">Source</span>
  </div>

</div>

</div>

<div class=""hr-border-zone"">

                <div class=""hr-border-dots"">
                  <div class=""icon dots"">
                  </div>
                </div>
                <div class=""hr-border-rect"">
                </div>

</div>

<div class=""hr-spacer-zone"">
<div class=""hr-spacer""></div>
</div>

<div class=""hr-content-zone"">

<h3>Table of Contents</h3>

</div>

<div class=""hr-info-zone"">
<div class=""hr-info""></div>
</div>

</div>

<div class=""toc-wrapper"">

<div class=""minimap"">

        <svg xmlns=""http://www.w3.org/2000/svg"" viewBox=""0 0 32 104"" fill=""#3C4952"" preserveAspectRatio=""xMinYMid meet"" stroke-width=""0"">
          <defs>

            <linearGradient id=""purple-green-mouse"" x1=""0%"" x2=""0%"" y1=""0%"" y2=""100%"" gradientUnits=""userSpaceOnUse"">
              <stop offset=""0%"" stop-color=""#AD71F2"" />
              <stop id=""stop-follow-mouse-1"" offset=""100%"" stop-color=""#1FB5A2"" />
              <stop id=""stop-follow-mouse-2"" offset=""100%"" stop-color=""#DAE1E5"" />
              <stop offset=""100%"" stop-color=""#DAE1E5"" />
            </linearGradient>

            <mask id=""gradient-mask"">
              <rect width=""100%"" height=""100%"" fill=""url(#purple-green-mouse)"" />
            </mask>

          </defs>

          <g fill=""url(#purple-green-mouse)"">
            <rect x=""14"" y=""24"" width=""4"" height=""56"" />
    <circle cx=""16"" cy=""20"" r=""8"" data-pos=""20"" />
    <circle cx=""16"" cy=""20"" r=""4"" fill=""#FCFEFF"" data-pos=""20"" />
    <circle cx=""16"" cy=""52"" r=""8"" data-pos=""52"" />
    <circle cx=""16"" cy=""52"" r=""4"" fill=""#FCFEFF"" data-pos=""52"" />
    <circle cx=""16"" cy=""84"" r=""6"" data-pos=""84"" />
    <circle cx=""16"" cy=""84"" r=""2"" fill=""#FCFEFF"" data-pos=""84"" /></g>
</svg>
</div>

<ul class=""contents"" data-nodeid=""4"">

<li class=""item"" data-nodeid=""5"">
<a class=""reference"" href=""#sec-1"">1. Section</a>
</li>

<li class=""item"" data-nodeid=""7"">
<a class=""reference"" href=""#sec-2"">2. Section</a>
<ul class=""itemize"" data-nodeid=""9"">

<li class=""item"" data-nodeid=""10"">
<a class=""reference"" href=""#sub-sec"">2.1. Sub-section</a>
</li>

</ul>

</li>

</ul>

</div>

</div>

<section id=""sec-1"" class=""section level-2"" data-nodeid=""12"">

<div class=""heading hr"" tabindex=0>

<div class=""hr-collapse-zone"">

            <div class=""hr-collapse"">
              <div class=""icon collapse"">
              </div>
            </div>

</div>

<div class=""hr-menu-zone"">

<div class=""hr-menu"">

  <div class=""hr-menu-label"">
    <span class=""hr-menu-item-text"">Section 1</span>
  </div>

  <div class=""hr-menu-separator""></div>

  <div class=""hr-menu-item link"">
    <span class=""icon link"">
    </span>
    <span class=""hr-menu-item-text"">Copy link</span>
  </div>

  <div class=""hr-menu-item"">
    <span class=""icon tree"">
    </span>
    <span class=""hr-menu-item-text"">Tree</span>
  </div>

  <div class=""hr-menu-item"">
    <span class=""icon code"">
    </span>
    <span class=""hr-menu-item-text"">Source</span>
  </div>

</div>

</div>

<div class=""hr-border-zone"">

                <div class=""hr-border-dots"">
                  <div class=""icon dots"">
                  </div>
                </div>
                <div class=""hr-border-rect"">
                </div>

</div>

<div class=""hr-spacer-zone"">
<div class=""hr-spacer""></div>
</div>

<div class=""hr-content-zone"">

<h2>1. Section</h2>

</div>

<div class=""hr-info-zone"">
<div class=""hr-info""></div>
</div>

</div>

</section>

<section id=""sec-2"" class=""section level-2"" data-nodeid=""13"">

<div class=""heading hr"" tabindex=0>

<div class=""hr-collapse-zone"">

            <div class=""hr-collapse"">
              <div class=""icon collapse"">
              </div>
            </div>

</div>

<div class=""hr-menu-zone"">

<div class=""hr-menu"">

  <div class=""hr-menu-label"">
    <span class=""hr-menu-item-text"">Section 2</span>
  </div>

  <div class=""hr-menu-separator""></div>

  <div class=""hr-menu-item link"">
    <span class=""icon link"">
    </span>
    <span class=""hr-menu-item-text"">Copy link</span>
  </div>

  <div class=""hr-menu-item"">
    <span class=""icon tree"">
    </span>
    <span class=""hr-menu-item-text"">Tree</span>
  </div>

  <div class=""hr-menu-item"">
    <span class=""icon code"">
    </span>
    <span class=""hr-menu-item-text"">Source</span>
  </div>

</div>

</div>

<div class=""hr-border-zone"">

                <div class=""hr-border-dots"">
                  <div class=""icon dots"">
                  </div>
                </div>
                <div class=""hr-border-rect"">
                </div>

</div>

<div class=""hr-spacer-zone"">
<div class=""hr-spacer""></div>
</div>

<div class=""hr-content-zone"">

<h2>2. Section</h2>

</div>

<div class=""hr-info-zone"">
<div class=""hr-info""></div>
</div>

</div>

<section id=""sub-sec"" class=""subsection level-3"" data-nodeid=""14"">

<div class=""heading hr"" tabindex=0>

<div class=""hr-collapse-zone"">

            <div class=""hr-collapse"">
              <div class=""icon collapse"">
              </div>
            </div>

</div>

<div class=""hr-menu-zone"">

<div class=""hr-menu"">

  <div class=""hr-menu-label"">
    <span class=""hr-menu-item-text"">Section 2.1</span>
  </div>

  <div class=""hr-menu-separator""></div>

  <div class=""hr-menu-item link"">
    <span class=""icon link"">
    </span>
    <span class=""hr-menu-item-text"">Copy link</span>
  </div>

  <div class=""hr-menu-item"">
    <span class=""icon tree"">
    </span>
    <span class=""hr-menu-item-text"">Tree</span>
  </div>

  <div class=""hr-menu-item"">
    <span class=""icon code"">
    </span>
    <span class=""hr-menu-item-text"">Source</span>
  </div>

</div>

</div>

<div class=""hr-border-zone"">

                <div class=""hr-border-dots"">
                  <div class=""icon dots"">
                  </div>
                </div>
                <div class=""hr-border-rect"">
                </div>

</div>

<div class=""hr-spacer-zone"">
<div class=""hr-spacer""></div>
</div>

<div class=""hr-content-zone"">

<h3>2.1. Sub-section</h3>

</div>

<div class=""hr-info-zone"">
<div class=""hr-info""></div>
</div>

</div>

</section>

</section>

</section>

</div>

</div>

</body>
").
Proof. vm_compute. reflexivity. Qed.

(** test_paragraph_hr.py, [test_paragraph_with_mathblock_ending_with_text] *)
Example test_hr_par_mb :
  render_doc true (BT CManuscript [] [BT CParagraph [] [txt "This is a paragraph with math inside of it "; BT CMathBlock [] [BT CText [(a_text, VStr (lit "2+2=4,")); (a_asis, VBool true)] []]; txt " and it ends with text."]])
  = Some (lit "<body>

<div class=""manuscriptwrapper"">

<div class=""manuscript"" data-nodeid=""0"">

<section class=""level-1"">

<div class=""paragraph hr hr-hidden"" tabindex=0 data-nodeid=""1"">

<div class=""hr-collapse-zone"">
<div class=""hr-spacer""></div>
</div>

<div class=""hr-menu-zone"">

<div class=""hr-menu"">

  <div class=""hr-menu-label"">
    <span class=""hr-menu-item-text"">Paragraph</span>
  </div>

  <div class=""hr-menu-separator""></div>

  <div class=""hr-menu-item link disabled"">
    <span class=""icon link"">
    </span>
    <span class=""hr-menu-item-text"">Copy link</span>
  </div>

  <div class=""hr-menu-item"">
    <span class=""icon tree"">
    </span>
    <span class=""hr-menu-item-text"">Tree</span>
  </div>

  <div class=""hr-menu-item"">
    <span class=""icon code"">
    </span>
    <span class=""hr-menu-item-text"">Source</span>
  </div>

</div>

</div>

<div class=""hr-border-zone"">

                <div class=""hr-border-dots"">
                  <div class=""icon dots"">
                  </div>
                </div>
                <div class=""hr-border-rect"">
                </div>

</div>

<div class=""hr-spacer-zone"">
<div class=""hr-spacer""></div>
</div>

<div class=""hr-content-zone"">

<p>This is a paragraph with math inside of it </p>
<div class=""mathblock hr hr-hidden hr-offset"" tabindex=0 data-nodeid=""3"">

<div class=""hr-collapse-zone"">
<div class=""hr-spacer""></div>
</div>

<div class=""hr-menu-zone"">

<div class=""hr-menu"">

  <div class=""hr-menu-label"">
    <span class=""hr-menu-item-text"">Equation (1)</span>
  </div>

  <div class=""hr-menu-separator""></div>

  <div class=""hr-menu-item link disabled"">
    <span class=""icon link"">
    </span>
    <span class=""hr-menu-item-text"">Copy link</span>
  </div>

  <div class=""hr-menu-item"">
    <span class=""icon tree"">
    </span>
    <span class=""hr-menu-item-text"">Tree</span>
  </div>

  <div class=""hr-menu-item"">
    <span class=""icon code"">
    </span>
    <span class=""hr-menu-item-text"">Source</span>
  </div>

</div>

</div>

<div class=""hr-border-zone"">

                <div class=""hr-border-dots"">
                  <div class=""icon dots"">
                  </div>
                </div>
                <div class=""hr-border-rect"">
                </div>

</div>

<div class=""hr-spacer-zone"">
<div class=""hr-spacer""></div>
</div>

<div class=""hr-content-zone"">
$$
2+2=4,
$$
</div>

<div class=""hr-info-zone"">
<div class=""hr-info""><div class=""eqn-number""><p>(1)</p></div></div>
</div>

</div>
<p> and it ends with text.</p>
</div>

<div class=""hr-info-zone"">
<div class=""hr-info""></div>
</div>

</div>

</section>

</div>

</div>

</body>
").
Proof. vm_compute. reflexivity. Qed.

(** test_proof_hr.py, [test_two_steps] *)
Example test_hr_proof :
  render_doc true (BT CManuscript [(a_title, VStr (lit "Some Title"))] [BT CProof [] [BT CStep [] [BT CParagraph [] [txt "Foo."]]; BT CStep [] [BT CParagraph [] [txt "Bar."]]]])
  = Some (lit "<body>

<div class=""manuscriptwrapper"">

<div class=""manuscript"" data-nodeid=""0"">

<section class=""level-1"">

<div class=""heading hr"" tabindex=0>

<div class=""hr-collapse-zone"">

            <div class=""hr-collapse"">
              <div class=""icon collapse"">
              </div>
            </div>

</div>

<div class=""hr-menu-zone"">

<div class=""hr-menu"">

  <div class=""hr-menu-label"">
    <span class=""hr-menu-item-text"">Title</span>
  </div>

  <div class=""hr-menu-separator""></div>

  <div class=""hr-menu-item link"">
    <span class=""icon link"">
    </span>
    <span class=""hr-menu-item-text"">Copy link</span>
  </div>

  <div class=""hr-menu-item"">
    <span class=""icon tree"">
    </span>
    <span class=""hr-menu-item-text"">Tree</span>
  </div>

  <div class=""hr-menu-item"">
    <span class=""icon code"">
    </span>
    <span class=""hr-menu-item-text"">Source</span>
  </div>

</div>

</div>

<div class=""hr-border-zone"">

                <div class=""hr-border-dots"">
                  <div class=""icon dots"">
                  </div>
                </div>
                <div class=""hr-border-rect"">
                </div>

</div>

<div class=""hr-spacer-zone"">
<div class=""hr-spacer""></div>
</div>

<div class=""hr-content-zone"">

<h1>Some Title</h1>

</div>

<div class=""hr-info-zone"">
<div class=""hr-info""></div>
</div>

</div>

<div class=""proof hr hr-labeled"" tabindex=0 data-nodeid=""1"">

<div class=""hr-collapse-zone"">

            <div class=""hr-collapse"">
              <div class=""icon collapse"">
              </div>
            </div>

</div>

<div class=""hr-menu-zone"">

<div class=""hr-menu"">

  <div class=""hr-menu-label"">
    <span class=""hr-menu-item-text"">Proof</span>
  </div>

  <div class=""hr-menu-separator""></div>

  <div class=""hr-menu-item collapse-steps"">
    <span class=""icon collapse-all"">
    </span>
    <span class=""hr-menu-item-text"">Collapse all</span>
  </div>

  <div class=""hr-menu-separator""></div>

  <div class=""hr-menu-item link disabled"">
    <span class=""icon link"">
    </span>
    <span class=""hr-menu-item-text"">Copy link</span>
  </div>

  <div class=""hr-menu-item"">
    <span class=""icon tree"">
    </span>
    <span class=""hr-menu-item-text"">Tree</span>
  </div>

  <div class=""hr-menu-item"">
    <span class=""icon code"">
    </span>
    <span class=""hr-menu-item-text"">Source</span>
  </div>

</div>

</div>

<div class=""hr-border-zone"">

                <div class=""hr-border-dots"">
                  <div class=""icon dots"">
                  </div>
                </div>
                <div class=""hr-border-rect"">
                </div>

</div>

<div class=""hr-spacer-zone"">
<div class=""hr-spacer""></div>
</div>

<div class=""hr-content-zone"">

<div class=""paragraph hr-label"">

<p><span class=""span label"">Proof.</span></p>

</div>

<div class=""step hr hr-offset"" tabindex=0 data-nodeid=""2"">

<div class=""hr-collapse-zone"">
<div class=""hr-spacer""></div>
</div>

<div class=""hr-menu-zone"">

<div class=""hr-menu"">

  <div class=""hr-menu-label"">
    <span class=""hr-menu-item-text"">Step ⟨1⟩</span>
  </div>

  <div class=""hr-menu-separator""></div>

  <div class=""hr-menu-item collapse-subproof disabled"">
    <span class=""icon collapse"">
    </span>
    <span class=""hr-menu-item-text"">Collapse</span>
  </div>

  <div class=""hr-menu-item collapse-steps disabled"">
    <span class=""icon collapse-all"">
    </span>
    <span class=""hr-menu-item-text"">Collapse all</span>
  </div>

  <div class=""hr-menu-separator""></div>

  <div class=""hr-menu-item link disabled"">
    <span class=""icon link"">
    </span>
    <span class=""hr-menu-item-text"">Copy link</span>
  </div>

  <div class=""hr-menu-item"">
    <span class=""icon tree"">
    </span>
    <span class=""hr-menu-item-text"">Tree</span>
  </div>

  <div class=""hr-menu-item"">
    <span class=""icon code"">
    </span>
    <span class=""hr-menu-item-text"">Source</span>
  </div>

</div>

</div>

<div class=""hr-border-zone"">

                <div class=""hr-border-dots"">
                  <div class=""icon dots"">
                  </div>
                </div>
                <div class=""hr-border-rect"">
                </div>

</div>

<div class=""hr-spacer-zone"">
<div class=""hr-spacer""></div>
</div>

<div class=""hr-content-zone"">

<div class=""statement"" data-nodeid=""3"">

<div class=""paragraph hr hr-hidden hr-offset"" tabindex=0 data-nodeid=""4"">

<div class=""hr-collapse-zone"">
<div class=""hr-spacer""></div>
</div>

<div class=""hr-menu-zone"">

<div class=""hr-menu"">

  <div class=""hr-menu-label"">
    <span class=""hr-menu-item-text"">Paragraph</span>
  </div>

  <div class=""hr-menu-separator""></div>

  <div class=""hr-menu-item link disabled"">
    <span class=""icon link"">
    </span>
    <span class=""hr-menu-item-text"">Copy link</span>
  </div>

  <div class=""hr-menu-item"">
    <span class=""icon tree"">
    </span>
    <span class=""hr-menu-item-text"">Tree</span>
  </div>

  <div class=""hr-menu-item"">
    <span class=""icon code"">
    </span>
    <span class=""hr-menu-item-text"">Source</span>
  </div>

</div>

</div>

<div class=""hr-border-zone"">

                <div class=""hr-border-dots"">
                  <div class=""icon dots"">
                  </div>
                </div>
                <div class=""hr-border-rect"">
                </div>

</div>

<div class=""hr-spacer-zone"">
<div class=""hr-spacer""></div>
</div>

<div class=""hr-content-zone"">

<p>Foo.</p>

</div>

<div class=""hr-info-zone"">
<div class=""hr-info""></div>
</div>

</div>

</div>

</div>

<div class=""hr-info-zone"">
<div class=""hr-info""><div class=""step-number""><p>⟨1⟩</p></div></div>
</div>

</div>

<div class=""step last hr hr-offset"" tabindex=0 data-nodeid=""6"">

<div class=""hr-collapse-zone"">
<div class=""hr-spacer""></div>
</div>

<div class=""hr-menu-zone"">

<div class=""hr-menu"">

  <div class=""hr-menu-label"">
    <span class=""hr-menu-item-text"">Step ⟨2⟩</span>
  </div>

  <div class=""hr-menu-separator""></div>

  <div class=""hr-menu-item collapse-subproof disabled"">
    <span class=""icon collapse"">
    </span>
    <span class=""hr-menu-item-text"">Collapse</span>
  </div>

  <div class=""hr-menu-item collapse-steps disabled"">
    <span class=""icon collapse-all"">
    </span>
    <span class=""hr-menu-item-text"">Collapse all</span>
  </div>

  <div class=""hr-menu-separator""></div>

  <div class=""hr-menu-item link disabled"">
    <span class=""icon link"">
    </span>
    <span class=""hr-menu-item-text"">Copy link</span>
  </div>

  <div class=""hr-menu-item"">
    <span class=""icon tree"">
    </span>
    <span class=""hr-menu-item-text"">Tree</span>
  </div>

  <div class=""hr-menu-item"">
    <span class=""icon code"">
    </span>
    <span class=""hr-menu-item-text"">Source</span>
  </div>

</div>

</div>

<div class=""hr-border-zone"">

                <div class=""hr-border-dots"">
                  <div class=""icon dots"">
                  </div>
                </div>
                <div class=""hr-border-rect"">
                </div>

</div>

<div class=""hr-spacer-zone"">
<div class=""hr-spacer""></div>
</div>

<div class=""hr-content-zone"">

<div class=""statement"" data-nodeid=""7"">

<div class=""paragraph hr hr-hidden hr-offset"" tabindex=0 data-nodeid=""8"">

<div class=""hr-collapse-zone"">
<div class=""hr-spacer""></div>
</div>

<div class=""hr-menu-zone"">

<div class=""hr-menu"">

  <div class=""hr-menu-label"">
    <span class=""hr-menu-item-text"">Paragraph</span>
  </div>

  <div class=""hr-menu-separator""></div>

  <div class=""hr-menu-item link disabled"">
    <span class=""icon link"">
    </span>
    <span class=""hr-menu-item-text"">Copy link</span>
  </div>

  <div class=""hr-menu-item"">
    <span class=""icon tree"">
    </span>
    <span class=""hr-menu-item-text"">Tree</span>
  </div>

  <div class=""hr-menu-item"">
    <span class=""icon code"">
    </span>
    <span class=""hr-menu-item-text"">Source</span>
  </div>

</div>

</div>

<div class=""hr-border-zone"">

                <div class=""hr-border-dots"">
                  <div class=""icon dots"">
                  </div>
                </div>
                <div class=""hr-border-rect"">
                </div>

</div>

<div class=""hr-spacer-zone"">
<div class=""hr-spacer""></div>
</div>

<div class=""hr-content-zone"">

<p>Bar.</p>

</div>

<div class=""hr-info-zone"">
<div class=""hr-info""></div>
</div>

</div>

</div>

</div>

<div class=""hr-info-zone"">
<div class=""hr-info""><div class=""step-number""><p>⟨2⟩</p></div></div>
</div>

</div>

</div>

<div class=""hr-info-zone"">
<div class=""hr-info""></div>
</div>

</div>

</section>

</div>

</div>

</body>
").
Proof. vm_compute. reflexivity. Qed.
