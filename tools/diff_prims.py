import re,random,io,pathlib,warnings
random.seed(5)
def S(x): return '['+';'.join(f'{ord(c)}%N' for c in x)+']'
def O(x): return 'None' if x is None else f'(Some {S(x)})'
sp=[' ','\t','\n','\r','\x0b','\x0c','\x1c','\x85','\xa0','\u2003','\u3000','\u200b']
def rnd(n,al): return ''.join(random.choice(al) for _ in range(random.randint(0,n)))
T=[]
def add(coq,exp): T.append((coq,exp))
L=sp+list('ab#|:-`@*+\\')
LANG=re.compile(r"^\s*#\s*language\s*:\s*([a-zA-Z\-_]+)\s*$")
kws=['Given ','* ','Feature','Rule','Scenario Outline','Scenario']
K='[' + ';'.join(S(k) for k in kws)+']'
hdr=r"^(#{1,6}\s)"; bul=r"^(\s*[*+-]\s*)"
for i in range(700):
    x=rnd(8,L)
    add(f'obs (strip {S(x)})',O(x.strip())); add(f'obs (rstrip_crlf {S(x)})',O(x.rstrip("\r\n")))
    add(f'obs (re_sub re_cell_lead [] {S(x)})',O(re.sub(r"^[^\S\n]*","",x,flags=re.U)))
    add(f'obs (re_sub re_cell_trail [] {S(x)})',O(re.sub(r"[^\S\n]*$","",x,flags=re.U)))
    add(f'obs (uncomment {S(x)})',O(re.split(r"\s#",x,2)[0]))
    add(f'obb (re_search re_tag_space {S(x)})',"true" if re.search(r"[^\S+]",x) else "false")
    add(f'obb (re_match md_table_re {S(x)})',"true" if re.match("^\\s?\\s?\\s?\\s?\\s?\\|",x) else "false")
    y=rnd(5,list(':-\n -'))
    add(f'obb (re_match md_separator_re {S(y)})',"true" if re.match("^:?-+:?$",y) else "false")
    z=''.join([random.choice(['',' ','\n']),'#',rnd(2,sp),random.choice(['language','languag']),rnd(2,sp),random.choice([':',':','']),rnd(2,sp),rnd(4,list('aZ-_1')),rnd(2,sp)])
    m=LANG.match(z)
    add(f'obg 1 (re_match LANGUAGE_RE {S(z)})',O(m.group(1) if m else None))
    w=''.join([rnd(7,['#','#','*','-',' ']),rnd(2,sp),random.choice(kws+['x']),random.choice([':','',': ']),rnd(4,L+kws)])
    for pre,nm in((hdr,'md_header'),(bul,'md_bullet')):
      for suf in (':',''):
        m=re.search("{}({}){}(.*)".format(pre,'|'.join(map(re.escape,kws)),suf),w)
        for g in (1,2,3):
          add(f'obg2 {g} (re_search (md_title_re {nm} {K} {S(suf)}) {S(w)})',O(m.group(g) if m else None))
    v=rnd(9,list('`@ab '))
    ms=[(mm.start(),mm.group(1)) for mm in re.finditer("`(@[^`]+)`",v)]
    add(f'length (md_tags_go {S(v)} 0 0 0)', str(len(ms)))
    add(f'concat (map i_text (md_tags_go {S(v)} 0 0 0))', S(''.join(b for a,b in ms)))
    u=rnd(6,list('ab\\\'"\n\t')+['\x00','\x7f','\xad','é','\u2028','\U0001f600','\ue000','\x1b'])
    pr='[' + ';'.join(f'{ord(c)}%N' for c in sorted(set(u)) if c.isprintable())+']'
    add(f'repr_str (fun c => existsb (N.eqb c) {pr}) {S(u)}', S(repr(u)))
    n=rnd(5,list('ab.. ')) 
    if n.strip('.') and n not in('.','..'):
        add(f'path_suffix {S(n)}',S(pathlib.PurePosixPath(n).suffix)); add(f'path_stem {S(n)}',S(pathlib.PurePosixPath(n).stem))
    q=rnd(6,['\r','\n','a','\r\n','\x85','\u2028','\x0b'])
    add(f'universal_newlines {S(q)}',S(io.TextIOWrapper(io.BytesIO(q.encode()),encoding='utf-8').read()))
    add(f'split_lines {S(q)}','['+';'.join(S(l) for l in io.StringIO(q))+']' )
    c=rnd(6,list('ab ')); p=rnd(2,list('ab')) or 'a'
    add(f'replace {S(p)} {S(p+"x")} {S(c)}',S(c.replace(p,p+"x")))
    add(f'split_on 97%N {S(c)}','['+';'.join(S(l) for l in c.split('a'))+']')
    l=[rnd(3,list('abA_é')) for _ in range(4)]
    add('sorted ['+';'.join(map(S,l))+']','['+';'.join(map(S,sorted(l)))+']')
body=''
for i in range(0,len(T),200):
    body+='Lemma t%d : (%s) = (%s).\nProof. vm_compute. reflexivity. Qed.\n'%(i,', '.join(a for a,b in T[i:i+200]),', '.join(b for a,b in T[i:i+200])) if False else ''
hdrv='''From Verif Require Import PyStr Types Regex Line DialectData Matcher Ast Parser Compiler Robot PropParse.
Require Import List. Import ListNotations.
Definition obs (x:str) := Some x.
Definition obb {A} (o : option A) := match o with Some _ => true | None => false end.
Definition obg n (o : option rst) := match o with Some st => group n st | None => None end.
Definition obg2 n (o : option (str*rst)) := match o with Some (_,st) => group n st | None => None end.
'''
open('DT2.v','w').write(hdrv+''.join(f'Goal {a} = {b}. vm_compute. (reflexivity || idtac "BAD {i}"). Abort.\n' for i,(a,b) in enumerate(T)))
print(len(T))
