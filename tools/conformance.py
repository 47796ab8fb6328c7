#!/usr/bin/env python3
"""Turn the repository's own AST tests (/repo/test/*.json) into Coq checks of the model: each test's
input goes through the modelled include, preprocess, tokenize and parse, and the resulting tree and
errors must be the expected ones.  usage: conformance.py OUTDIR NFILES [only-name ...]"""
import json, glob, os, sys, re

def S(s):
    if all(32 <= ord(c) < 127 or c == '\n' for c in s):
        return '(lit "' + s.replace('"', '""') + '")' if s else '[]'
    return '[' + '; '.join(f'{ord(c)}%N' for c in s) + ']'
def O(f, x): return 'None' if x is None else f'(Some {f(x)})'
def B(b): return 'true' if b else 'false'
def L(f, xs): return '[' + '; '.join(f(x) for x in xs) + ']'
def attrs(a): return L(lambda kv: f'({S(kv[0])}, {S(kv[1])})', sorted(a.items()))
CT = dict(bold='CBold', italics='CItalics', underline='CUnderline', superscript='CSuperscript',
  subscript='CSubscript', strikethrough='CStrikethrough', monospace='CMonospace', span='CSpan',
  div='CDiv', mark='CMark', blockquote='CBlockquote', insertion='CInsertion', deletion='CDeletion',
  hidden='CHidden', invisible='CInvisible', size='CSize', ruby='CRuby', paragraph='CParagraph')
CT['ruby-text'] = 'CRubyText'
AL = dict(left='AlLeft', right='AlRight', center='AlCenter', justify='AlJustify')
def ct(t):
    if isinstance(t, str): return CT[t]
    if 'align' in t: return f'(CAlign {AL[t["align"]]})'
    h = t['header']; return f'(CHeader (HD {h["level"]} {B(h["has-toc"])}))'
AT = {'new-tab': 'ATNewTab', 'parent': 'ATParent', 'top': 'ATTop', 'same': 'ATSame'}
LT = dict(direct='LTDirect', page='LTPage', interwiki='LTInterwiki', anchor='LTAnchor')
LT['table-of-contents'] = 'LTTableOfContents'
def pref(p): return f'(PR {O(S, p["site"])} {S(p["page"])})'
def loc(l): return f'(LUrl {S(l)})' if isinstance(l, str) else f'(LPage {pref(l)})'
def label(l):
    if l == 'page': return 'LabelPage'
    if 'text' in l: return f'(LabelText {S(l["text"])})'
    return f'(LabelUrl {O(S, l["url"])})'
def isrc(s):
    d = s['data']
    return {'url': lambda: f'(ISUrl {S(d)})', 'file1': lambda: f'(ISFile1 {S(d["file"])})',
            'file2': lambda: f'(ISFile2 {S(d["page"])} {S(d["file"])})',
            'file3': lambda: f'(ISFile3 {S(d["site"])} {S(d["page"])} {S(d["file"])})'}[s['type']]()
def mod(m):
    d = m.get('data'); k = m['module']
    if k == 'backlinks': return f'(MBacklinks {O(S, d["page"])})'
    if k == 'categories': return f'(MCategories {B(d["include-hidden"])})'
    if k == 'join': return f'(MJoin {O(S, d["button-text"])} {attrs(d["attributes"])})'
    if k == 'page-tree': return f'(MPageTree {O(S, d["root"])} {B(d["show-root"])} {O(lambda n: f"{n}%N", d["depth"])})'
    if k == 'rate': return 'MRate'
    raise Exception(k)
def emb(e):
    d = e['data']; k = e['embed']
    if k == 'youtube': return f'(EmYoutube {S(d["video-id"])})'
    if k == 'vimeo': return f'(EmVimeo {S(d["video-id"])})'
    raise Exception(k)
def li(i):
    if i['item-type'] == 'elements': return f'(LIElements {attrs(i["attributes"])} {els(i["elements"])})'
    return f'(LISubList {el(i)})'
def cell(c): return f'(TC {B(c["header"])} {c["column-span"]}%N {O(lambda a: AL[a], c["align"])} {attrs(c["attributes"])} {els(c["elements"])})'
def row(r): return f'(TR {attrs(r["attributes"])} {L(cell, r["cells"])})'
def els(es): return L(el, es)
def el(e):
    k = e['element']; d = e.get('data')
    simple = {'text': 'EText', 'raw': 'ERaw', 'variable': 'EVariable', 'email': 'EEmail',
              'anchor-name': 'EAnchorName', 'equation-reference': 'EEquationReference', 'style': 'EStyle'}
    if k in simple: return f'({simple[k]} {S(d)})'
    if k == 'container': return f'(EContainer {ct(d["type"])} {attrs(d["attributes"])} {els(d["elements"])})'
    if k == 'module': return f'(EModule {mod(d)})'
    if k == 'table': return f'(ETable {attrs(d["attributes"])} {L(row, d["rows"])})'
    if k == 'tab-view': return '(ETabView ' + L(lambda t: f'(TB {S(t["label"])} {els(t["elements"])})', d) + ')'
    if k == 'anchor': return f'(EAnchor {O(lambda t: AT[t], d["target"])} {attrs(d["attributes"])} {els(d["elements"])})'
    if k == 'link': return f'(ELink {LT[d["type"]]} {loc(d["link"])} {O(S, d.get("extra"))} {label(d["label"])} {O(lambda t: AT[t], d["target"])})'
    if k == 'image':
        a = d['alignment']
        return f'(EImage {isrc(d["source"])} {O(loc, d["link"])} {O(lambda a: "(FA %s %s)" % (AL[a["align"]], B(a["float"])), a)} {attrs(d["attributes"])})'
    if k == 'list': return f'(EList {dict(bullet="LBullet", numbered="LNumbered", generic="LGeneric")[d["type"]]} {attrs(d["attributes"])} {L(li, d["items"])})'
    if k == 'definition-list': return '(EDefinitionList ' + L(lambda i: f'(DF {S(i["key_string"])} {els(i["key"])} {els(i["value"])})', d) + ')'
    if k == 'radio-button': return f'(ERadioButton {S(d["name"])} {B(d["checked"])} {attrs(d["attributes"])})'
    if k == 'check-box': return f'(ECheckBox {B(d["checked"])} {attrs(d["attributes"])})'
    if k == 'collapsible': return f'(ECollapsible {els(d["elements"])} {attrs(d["attributes"])} {B(d["start-open"])} {O(S, d["show-text"])} {O(S, d["hide-text"])} {B(d["show-top"])} {B(d["show-bottom"])})'
    if k == 'table-of-contents': return f'(ETableOfContents {attrs(d["attributes"])} {O(lambda a: AL[a], d["align"])})'
    if k == 'footnote': return 'EFootnote'
    if k == 'footnote-block': return f'(EFootnoteBlock {O(S, d["title"])} {B(d["hide"])})'
    if k == 'bibliography-cite': return f'(EBibliographyCite {S(d["label"])} {B(d["brackets"])})'
    if k == 'bibliography-block': return f'(EBibliographyBlock {d["index"]} {O(S, d["title"])} {B(d["hide"])})'
    if k == 'user': return f'(EUser {S(d["name"])} {B(d["show-avatar"])})'
    if k == 'color': return f'(EColor {S(d["color"])} {els(d["elements"])})'
    if k == 'code': return f'(ECode {S(d["contents"])} {O(S, d["language"])})'
    if k == 'math': return f'(EMath {O(S, d["name"])} {S(d["latex-source"])})'
    if k == 'math-inline': return f'(EMathInline {S(d["latex-source"])})'
    if k == 'embed': return f'(EEmbed {emb(d)})'
    if k == 'html': return f'(EHtml {S(d["contents"])})'
    if k == 'iframe': return f'(EIframe {attrs(d["attributes"])} {S(d["url"])})'
    if k == 'include':
        v = L(lambda kv: f'({S(kv[0])}, {S(kv[1])})', list(d['variables'].items()))
        return f'(EInclude {B(d["paragraph-safe"])} {v} {pref(d["location"])} {els(d["elements"])})'
    if k == 'line-break': return 'ELineBreak'
    if k == 'line-breaks': return f'(ELineBreaks {d}%N)'
    if k == 'clear-float': return '(EClearFloat ' + dict(left='CFLeft', right='CFRight', both='CFBoth')[d] + ')'
    if k == 'horizontal-rule': return 'EHorizontalRule'
    raise Exception(k)
def camel(s): return ''.join(w.capitalize() for w in s.split('-'))
TOKMAP = {'ClearFloatBoth': 'TClearFloatBoth'}
def err(e):
    t = camel(e['token'])
    return f'(PE {camel(e["kind"])} "{e["rule"]}"%string T{t} {e["span"][0]} {e["span"][1]})'
HEADER = '''(** %s -- generated by tools/conformance.py from the repository's AST tests (/repo/test/*.json):
    the modelled include, preprocess, tokenize and parse applied to each test's input give the tree
    and the errors the repository expects.  These are tests of the model, not proofs. *)
From Verif Require Import Base Strings Links Attr Preproc Includes Lexer Depth Tree Text Toc PState Blocks Rules Parse ParseTestEnv.
'''
HEADER2 = '''(** %s -- generated by tools/conformance.py from the repository's HTML tests (/repo/test/*.html):
    the modelled include, preprocess, tokenize, parse and HTML renderer applied to each test's input
    give exactly the HTML the repository expects.  These are tests of the model, not proofs. *)
From Verif Require Import Base Strings Links Attr Preproc Includes Lexer Depth Tree Text Toc PState Blocks Rules Parse Html Render ParseTestEnv RenderTestEnv.
'''
if __name__ == '__main__':
    out, n = sys.argv[1], int(sys.argv[2]); only = sys.argv[3:]
    tests = []
    for f in sorted(glob.glob('/repo/test/*.json')):
        name = os.path.basename(f)[:-5]
        if only and name not in only: continue
        d = json.load(open(f)); t = d['tree']
        exp = (f'(TREE {els(t["elements"])} {els(t["table-of-contents"])} {L(S, t["html-blocks"])} '
               + L(lambda c: f'(CB {S(c["contents"])} {O(S, c["name"])})', t['code-blocks']) + ' '
               + L(els, t['footnotes']) + ' '
               + L(lambda b: L(lambda kv: f'({S(kv[0])}, {els(kv[1])})', b), t['bibliographies'])
               + ' 0 ' + L(err, d['errors']) + ')')
        tests.append((name, d['input'], exp))
    for i in range(n):
        mod = f'ParseTests{i + 1}'
        with open(os.path.join(out, mod + '.v'), 'w') as fh:
            fh.write(HEADER % (mod + '.v'))
            for name, inp, exp in tests[i::n]:
                ident = 'test_' + re.sub(r'\W', '_', name)
                fh.write(f'Example {ident} : run_test {S(inp)} = Parsed {exp}.\nProof. vm_compute. reflexivity. Qed.\n')
    # The HTML tests: the rendered body of each test must be the repository's .html file.  Tests with
    # style sheets or LaTeX (done by other crates) are left out.
    hs = []
    for f in sorted(glob.glob('/repo/test/*.html')):
        name = os.path.basename(f)[:-5]
        if only and name not in only: continue
        body = open(f).read()
        if body.endswith('\n'): body = body[:-1]
        if not os.path.exists(f[:-5] + '.json'): continue
        if '<style>' in body or 'wj-math' in body: continue
        d = json.load(open(f[:-5] + '.json'))
        hs.append((name, d['input'], body))
    for i in range(n):
        mod = f'RenderTests{i + 1}'
        with open(os.path.join(out, mod + '.v'), 'w') as fh:
            fh.write(HEADER2 % (mod + '.v'))
            for name, inp, body in hs[i::n]:
                ident = 'html_' + re.sub(r'\W', '_', name)
                fh.write(f'Example {ident} : html_test {S("page-" + name)} {S(inp)} = Some {S(body)}.\nProof. vm_compute. reflexivity. Qed.\n')
    print(len(tests), len(hs))
