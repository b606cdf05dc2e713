import re,random,warnings
warnings.simplefilter('ignore')
random.seed(11)
def S(x): return '['+';'.join(f'{ord(c)}%N' for c in x)+']'
alpha=list('ab.*+?|()[]^$\\-{}dwsSWDb1,:Zz ')
cases=[]
def rnd(n,al): return ''.join(random.choice(al) for _ in range(random.randint(0,n)))
frag=['a','b','.','a*','a+','b?','a*?','a+?','(a|b)','(ab)','(?:a)','[ab]','[^a]','[a-c]','[z-a]','[a-\\d]','\\d','\\w+','\\s','\\.','\\\\','|','^','$','(','[',')',']','{','}','{2}','-','**','a{1,2}','[]a]','[^]a]','[a\\]]','\\b','\\Z','\\n','>','<','a|','|b','()','(a)*','(a*)*','((a)|b)+','[\\w.]','[\\s\\S]','\\S+','.*','.*?','.+','*','+','?','^*','$?','{','{a','{,','}','(?:','(?','[^','[-a]','[a-]','[a-b-c]','\\>','\\<','|{2}','^{1}','{x}','(|a)','\\t']
for i in range(4000):
    h=''.join(random.choice(frag) for _ in range(random.randint(1,4)))
    val=rnd(4,['a','\\','1','g','<','>','\\1','n'])
    txt=''.join(random.choice(['<','>','a','b','ab',' ','1','.','c','\n','-',']','<a>','<b>','<ab>','<'+h+'>']) for _ in range(random.randint(1,8)))
    try:
        r=re.sub('<'+h+'>', re.sub(r'\\',r'\\\\',val), txt)   # replaced as compiler does below
        exp='Some '+S(r)
    except re.error as e:
        exp='None'
    cases.append((h,val,txt,exp))
open('DT.v','w').write('''From Verif Require Import PyStr Types Regex Line Compiler.
Require Import List. Import ListNotations.
Definition ok (c : str*str*str*option str) : nat := let '(h,v,t,e) := c in match subst_one h v t, e with Ok r, Some r' => if str_eqb r r' then 0 else 1 | Err EReError, None => 0 | Err EUnmodelled, _ => 2 | _, _ => 3 end.
Definition cs : list (str*str*str*option str) := [
'''+';\n'.join(f'({S(h)},{S(v)},{S(t)},{e})' for h,v,t,e in cases)+'''].
Definition res := Eval vm_compute in map ok cs.
Eval vm_compute in (length (filter (Nat.eqb 0) res), length (filter (Nat.eqb 1) res), length (filter (Nat.eqb 2) res), length (filter (Nat.eqb 3) res)).
Eval vm_compute in map fst (filter (fun p => Nat.eqb (snd p) 1 || Nat.eqb (snd p) 3)%bool (combine (seq 0 (length res)) res)).
''')

